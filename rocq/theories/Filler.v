(** Model of tcmalloc/huge_page_filler.h: the hugepages from which small page runs are served.
    [N] is kPagesPerHugePage and [sub] whether subrelease_unbacked_mode_ is kEnabled.  A hugepage,
    and its tracker, is named by a number.  Everything runs under pageheap_lock; Put drops the lock
    around its call to the OS, at a point where the tracker is on no list and all that follows
    adds to counters that nothing reads in between, so Put is one step here.  Not modelled: the
    time series of statistics, life times, sampling of trackers for naming, and the printing. *)
From Verif Require Import Base Bitmap HintedLists PageTracker.

(** The arrays of lists, huge_page_filler.h:934-954. *)
Inductive lk := LReg (dense : bool) | LDon | LPart (dense : bool) | LRel (dense : bool).
Definition lk_eqb (a b : lk) : bool :=
  match a, b with
  | LReg d, LReg e | LPart d, LPart e | LRel d, LRel e => Bool.eqb d e
  | LDon, LDon => true
  | _, _ => false
  end.
Definition updk {A} (f : lk -> A) (k : lk) (v : A) : lk -> A := fun k' => if lk_eqb k' k then v else f k'.
Definition updb {A} (f : bool -> A) (d : bool) (v : A) : bool -> A := fun b => if Bool.eqb b d then v else f b.

(** huge_page_filler.h:905-974, 1029-1063 (the members).  dont_free_tracker_mask_ and
    being_collapsed are members of the trackers (huge_page_tracker.h:245-250, 282-299). *)
Record filler := Filler {
  fl_lists : lk -> hlists;
  fl_freed : list Z;            (* fully_freed_trackers_ *)
  fl_tr : Z -> ptracker;
  fl_size : Z;
  fl_alloc : bool -> Z;         (* pages_allocated_ *)
  fl_unmapped : Z;
  fl_unaccounted : Z;           (* unmapping_unaccounted_ *)
  fl_used_rel : bool -> Z;      (* n_used_released_ *)
  fl_used_part : bool -> Z;     (* n_used_partial_released_ *)
  fl_was_rel : bool -> Z;       (* n_was_released_ *)
  fl_keep : Z -> Z;             (* dont_free_tracker_mask_ *)
  fl_collapsing : Z -> bool }.  (* being_collapsed *)

Definition filler_init (t0 : Z -> ptracker) : filler :=
  Filler (fun _ => hl_empty) [] t0 0 (fun _ => 0) 0 0 (fun _ => 0) (fun _ => 0) (fun _ => 0) (fun _ => 0) (fun _ => false).

Definition set_lists (f : filler) v := Filler v (fl_freed f) (fl_tr f) (fl_size f) (fl_alloc f) (fl_unmapped f) (fl_unaccounted f) (fl_used_rel f) (fl_used_part f) (fl_was_rel f) (fl_keep f) (fl_collapsing f).
Definition set_freed (f : filler) v := Filler (fl_lists f) v (fl_tr f) (fl_size f) (fl_alloc f) (fl_unmapped f) (fl_unaccounted f) (fl_used_rel f) (fl_used_part f) (fl_was_rel f) (fl_keep f) (fl_collapsing f).
Definition set_tr (f : filler) v := Filler (fl_lists f) (fl_freed f) v (fl_size f) (fl_alloc f) (fl_unmapped f) (fl_unaccounted f) (fl_used_rel f) (fl_used_part f) (fl_was_rel f) (fl_keep f) (fl_collapsing f).
Definition set_size (f : filler) v := Filler (fl_lists f) (fl_freed f) (fl_tr f) v (fl_alloc f) (fl_unmapped f) (fl_unaccounted f) (fl_used_rel f) (fl_used_part f) (fl_was_rel f) (fl_keep f) (fl_collapsing f).
Definition set_alloc (f : filler) v := Filler (fl_lists f) (fl_freed f) (fl_tr f) (fl_size f) v (fl_unmapped f) (fl_unaccounted f) (fl_used_rel f) (fl_used_part f) (fl_was_rel f) (fl_keep f) (fl_collapsing f).
Definition set_unmapped (f : filler) v := Filler (fl_lists f) (fl_freed f) (fl_tr f) (fl_size f) (fl_alloc f) v (fl_unaccounted f) (fl_used_rel f) (fl_used_part f) (fl_was_rel f) (fl_keep f) (fl_collapsing f).
Definition set_unaccounted (f : filler) v := Filler (fl_lists f) (fl_freed f) (fl_tr f) (fl_size f) (fl_alloc f) (fl_unmapped f) v (fl_used_rel f) (fl_used_part f) (fl_was_rel f) (fl_keep f) (fl_collapsing f).
Definition set_used_rel (f : filler) v := Filler (fl_lists f) (fl_freed f) (fl_tr f) (fl_size f) (fl_alloc f) (fl_unmapped f) (fl_unaccounted f) v (fl_used_part f) (fl_was_rel f) (fl_keep f) (fl_collapsing f).
Definition set_used_part (f : filler) v := Filler (fl_lists f) (fl_freed f) (fl_tr f) (fl_size f) (fl_alloc f) (fl_unmapped f) (fl_unaccounted f) (fl_used_rel f) v (fl_was_rel f) (fl_keep f) (fl_collapsing f).
Definition set_was_rel (f : filler) v := Filler (fl_lists f) (fl_freed f) (fl_tr f) (fl_size f) (fl_alloc f) (fl_unmapped f) (fl_unaccounted f) (fl_used_rel f) (fl_used_part f) v (fl_keep f) (fl_collapsing f).
Definition set_keep (f : filler) v := Filler (fl_lists f) (fl_freed f) (fl_tr f) (fl_size f) (fl_alloc f) (fl_unmapped f) (fl_unaccounted f) (fl_used_rel f) (fl_used_part f) (fl_was_rel f) v (fl_collapsing f).
Definition set_collapsing (f : filler) v := Filler (fl_lists f) (fl_freed f) (fl_tr f) (fl_size f) (fl_alloc f) (fl_unmapped f) (fl_unaccounted f) (fl_used_rel f) (fl_used_part f) (fl_was_rel f) (fl_keep f) v.

Definition put_tracker (f : filler) (x : Z) (t : ptracker) : filler := set_tr f (upd (fl_tr f) x t).
Definition put_list (f : filler) (k : lk) (l : hlists) : filler := set_lists f (updk (fl_lists f) k l).

(** huge_page_filler.h:919, huge_page_filler.h:932. *)
Definition k_chunks : Z := 8.
Definition nlists (N : Z) (k : lk) : Z := match k with LDon => N | _ => N * k_chunks end.

(** __builtin_clzl. *)
Definition clz64 (x : Z) : Z := 63 - Z.log2 x.

(** IndexFor, huge_page_filler.h:2384-2408. *)
Definition index_for (t : ptracker) : Z :=
  if pt_dense t then 0
  else
    let neg_ceil_log := clz64 (2 * pt_nallocs t - 1) in
    let off := clz64 1 - (k_chunks - 1) in
    Z.max neg_ceil_log off - off.

(** SparseListFor, DenseListFor and ListFor, huge_page_filler.h:2411-2440. *)
Definition list_for (N longest chunk : Z) (dense : bool) (nallocs : Z) : Z :=
  if dense then (N - nallocs) * k_chunks + chunk else longest * k_chunks + chunk.

(** RemoveFromFillerList, huge_page_filler.h:2443-2470. *)
Definition fl_remove (N : Z) (sub : bool) (f : filler) (x : Z) : filler :=
  let t := fl_tr f x in
  let longest := pt_longest t in
  if pt_donated t then put_list f LDon (hl_remove (fl_lists f LDon) x longest)
  else
    let d := pt_dense t in
    let i := list_for N longest (index_for t) d (pt_nallocs t) in
    if negb (pt_released t) && (pt_unbroken t || negb sub) then
      put_list f (LReg d) (hl_remove (fl_lists f (LReg d)) x i)
    else if pt_free_pages N t <=? pt_rcount t then
      let f := put_list f (LRel d) (hl_remove (fl_lists f (LRel d)) x i) in
      set_used_rel f (updb (fl_used_rel f) d (fl_used_rel f d - pt_used t))
    else
      let f := put_list f (LPart d) (hl_remove (fl_lists f (LPart d)) x i) in
      set_used_part f (updb (fl_used_part f) d (fl_used_part f d - pt_used t)).

(** AddToFillerList, huge_page_filler.h:2485-2518. *)
Definition fl_add (N : Z) (sub : bool) (f : filler) (x : Z) : filler :=
  let longest := pt_longest (fl_tr f x) in
  if longest =? N then set_freed f (x :: fl_freed f)
  else
    let f := put_tracker f x (pt_set_donated (fl_tr f x) false) in
    let t := fl_tr f x in
    let d := pt_dense t in
    let i := list_for N longest (index_for t) d (pt_nallocs t) in
    if negb (pt_released t) && (pt_unbroken t || negb sub) then
      put_list f (LReg d) (hl_add (fl_lists f (LReg d)) x i)
    else if pt_free_pages N t <=? pt_rcount t then
      let f := put_list f (LRel d) (hl_add (fl_lists f (LRel d)) x i) in
      set_used_rel f (updb (fl_used_rel f) d (fl_used_rel f d + pt_used t))
    else
      let f := put_list f (LPart d) (hl_add (fl_lists f (LPart d)) x i) in
      set_used_part f (updb (fl_used_part f) d (fl_used_part f d + pt_used t)).

(** DonateToFillerList, huge_page_filler.h:2521-2532. *)
Definition fl_donate (f : filler) (x : Z) : filler :=
  let longest := pt_longest (fl_tr f x) in
  let f := put_tracker f x (pt_set_donated (fl_tr f x) true) in
  put_list f LDon (hl_add (fl_lists f LDon) x longest).

(** TryGet, huge_page_filler.h:1104-1241: the tracker, the index of the first page in it and
    from_released.  The choice of the tracker; it is taken off its list. *)
Definition choose_tracker (N : Z) (f : filler) (n : Z) (d : bool) : option (filler * option (Z * bool)) :=
  let li := list_for N n 0 d (N - 1) in
  let? (r, l) := hl_get_least (nlists N (LReg d)) (fl_lists f (LReg d)) li in
  match r with
  | Some x => Some (put_list f (LReg d) l, Some (x, false))
  | None =>
    let? (r, l) := (if d then Some (None, fl_lists f LDon) else hl_get_least (nlists N LDon) (fl_lists f LDon) n) in
    match r with
    | Some x => Some (put_list f LDon l, Some (x, false))
    | None =>
      let? (r, l) := hl_get_least (nlists N (LPart d)) (fl_lists f (LPart d)) li in
      match r with
      | Some x =>
        let f := put_list f (LPart d) l in
        Some (set_used_part f (updb (fl_used_part f) d (fl_used_part f d - pt_used (fl_tr f x))), Some (x, true))
      | None =>
        let? (r, l) := hl_get_least (nlists N (LRel d)) (fl_lists f (LRel d)) li in
        match r with
        | Some x =>
          let f := put_list f (LRel d) l in
          Some (set_used_rel f (updb (fl_used_rel f) d (fl_used_rel f d - pt_used (fl_tr f x))), Some (x, true))
        | None => Some (f, None)
        end
      end
    end
  end.
Definition try_get (N : Z) (sub : bool) (f : filler) (n : Z) (d : bool) (objects : Z) : option (filler * option (Z * Z * bool)) :=
  let? (f, c) := choose_tracker N f n d in
  match c with
  | None => Some (f, None)
  | Some (x, was_released) =>
    let? (t, i, unbacked) := pt_get N (fl_tr f x) n objects in
    let f := fl_add N sub (put_tracker f x t) x in
    let f := set_alloc f (updb (fl_alloc f) d (fl_alloc f d + n)) in
    let t := fl_tr f x in
    let f :=
      if was_released && negb (pt_released t) && negb (pt_was_released t) then
        set_was_rel (put_tracker f x (pt_set_was_released t true)) (updb (fl_was_rel f) d (fl_was_rel f d + 1))
      else f in
    Some (set_unmapped f (fl_unmapped f - unbacked), Some (x, i, was_released))
  end.

(** Put, huge_page_filler.h:1296-1356: returns the tracker if it is to be freed.  [os]: whether
    the call that unbacks the rest of the hugepage succeeds. *)
Definition unback_rest (N : Z) (f : filler) (t : ptracker) (os : bool) : filler :=
  let f := set_unmapped f (fl_unmapped f - pt_rcount t) in
  if (pt_rcount t <? pt_free_pages N t) && os then set_unaccounted f (fl_unaccounted f + (pt_free_pages N t - pt_rcount t))
  else f.
Definition clear_was_released (f : filler) (x : Z) (t : ptracker) : filler :=
  let d := pt_dense t in
  set_was_rel (put_tracker f x (pt_set_was_released t false)) (updb (fl_was_rel f) d (fl_was_rel f d - 1)).
Definition fl_put (N : Z) (sub : bool) (f : filler) (x i n objects : Z) (os : bool) : option (filler * option Z) :=
  let f := fl_remove N sub f x in
  let? t := pt_put N (fl_tr f x) i n objects in
  let f := put_tracker f x t in
  let d := pt_dense t in
  let f := set_alloc f (updb (fl_alloc f) d (fl_alloc f d - n)) in
  if pt_longest t =? N then
    let f := set_size f (fl_size f - 1) in
    let f := if pt_released t then unback_rest N f t os else f in
    let f := if pt_was_released t then clear_was_released f x t else f in
    if fl_keep f x =? 0 then Some (f, Some x) else Some (fl_add N sub f x, None)
  else Some (fl_add N sub f x, None).

(** Contribute, huge_page_filler.h:1359-1384. *)
Definition fl_contribute (N : Z) (sub : bool) (f : filler) (x : Z) (t : ptracker) (donated dense : bool) : filler :=
  let f := put_tracker f x t in
  let f := set_alloc f (updb (fl_alloc f) dense (fl_alloc f dense + pt_used t)) in
  let f :=
    if donated then fl_donate f x
    else fl_add N sub (if dense then put_tracker f x (pt_set_dense t) else f) x in
  set_size f (fl_size f + 1).

(** FetchFullyFreedTracker, huge_page_filler.h:2474-2482. *)
Definition fl_fetch (f : filler) : option Z * filler :=
  match fl_freed f with
  | [] => (None, f)
  | x :: l => (Some x, set_freed f l)
  end.

(** The part that ReleaseCandidates and HandleReleaseFree share. *)
Definition release_tracker (N : Z) (sub : bool) (f : filler) (x : Z) (os : Z -> Z -> bool) : option (filler * Z) :=
  let f := fl_remove N sub f x in
  let? (t, ret, _) := pt_release_free N (fl_tr f x) os in
  let f := put_tracker f x t in
  let f := set_unmapped f (fl_unmapped f + ret) in
  Some (fl_add N sub f x, ret).

(** ReleaseCandidates, huge_page_filler.h:1435-1493, on the sorted candidates. *)
Fixpoint release_candidates (N : Z) (sub : bool) (f : filler) (c : list Z) (target : Z) (os : Z -> Z -> Z -> bool) : option (filler * Z) :=
  match c with
  | [] => Some (f, 0)
  | best :: c =>
    if 0 <? target then
      let? (f, ret) := release_tracker N sub f best (os best) in
      let t := fl_tr f best in
      let f := if pt_was_released t && pt_released t then clear_was_released f best t else f in
      let? (f, total) := release_candidates N sub f c (target - ret) os in
      Some (f, ret + total)
    else Some (f, 0)
  end.

(** CompareForSubrelease, huge_page_filler.h:1003-1016. *)
Definition compare_for_subrelease (a b : ptracker) : bool :=
  if pt_used a <? pt_used b then true
  else if pt_used b <? pt_used a then false
  else if pt_dense a then false
  else pt_dense b.

(** PushCandidate, huge_page_filler.h:1391-1427: [c] are the candidates so far.  Of std::make_heap,
    std::pop_heap and std::push_heap it is used that the first candidate is one than which none is
    worse, and that popping removes that one; which one if there are several is left open. *)
Inductive push_candidate (K : Z) (tr : Z -> ptracker) : list Z -> Z -> list Z -> Prop :=
| pc_room c x : Z.of_nat (length c) < K -> push_candidate K tr c x (c ++ [x])
| pc_worse c1 w c2 x : K <= Z.of_nat (length (c1 ++ w :: c2)) ->
    (forall y, In y (c1 ++ w :: c2) -> compare_for_subrelease (tr w) (tr y) = false) ->
    compare_for_subrelease (tr w) (tr x) = true -> push_candidate K tr (c1 ++ w :: c2) x (c1 ++ w :: c2)
| pc_swap c1 w c2 x : K <= Z.of_nat (length (c1 ++ w :: c2)) ->
    (forall y, In y (c1 ++ w :: c2) -> compare_for_subrelease (tr w) (tr y) = false) ->
    compare_for_subrelease (tr w) (tr x) = false -> push_candidate K tr (c1 ++ w :: c2) x (c1 ++ x :: c2).

(** SelectCandidates, huge_page_filler.h:1388-1432, over the trackers [l] that are visited. *)
Inductive select_candidates (K : Z) (f : filler) : list Z -> list Z -> list Z -> Prop :=
| sc_nil c : select_candidates K f c [] c
| sc_skip c x l c' : fl_collapsing f x = true -> select_candidates K f c l c' -> select_candidates K f c (x :: l) c'
| sc_push c x l c1 c' : fl_collapsing f x = false -> push_candidate K (fl_tr f) c x c1 ->
    select_candidates K f c1 l c' -> select_candidates K f c (x :: l) c'.

(** The trackers visited in a round of the two loops of ReleasePages, huge_page_filler.h:1640-1647, 1669-1678. *)
Definition iter_from (N : Z) (f : filler) (k : lk) (start : Z) : option (list Z) := hl_iter (nlists N k) (fl_lists f k) start.
Definition visited_partial (N : Z) (f : filler) : option (list Z) :=
  let? a := iter_from N f (LPart false) k_chunks in
  let? b := iter_from N f (LPart true) k_chunks in
  Some (a ++ b).
Definition visited_regular (N : Z) (f : filler) : option (list Z) :=
  let? a := iter_from N f (LReg false) k_chunks in
  let? b := iter_from N f (LReg true) k_chunks in
  let? c := iter_from N f LDon 0 in
  Some (a ++ b ++ c).

(** std::sort in ReleaseCandidates: [c'] is [c] sorted. *)
Inductive sorted_by (lt : Z -> Z -> bool) : list Z -> Prop :=
| sb_nil : sorted_by lt []
| sb_cons x l : (forall y, In y l -> lt y x = false) -> sorted_by lt l -> sorted_by lt (x :: l).
Definition sorts_to (tr : Z -> ptracker) (c c' : list Z) : Prop :=
  (forall x, count_occ Z.eq_dec c x = count_occ Z.eq_dec c' x) /\
  sorted_by (fun a b => compare_for_subrelease (tr a) (tr b)) c'.

(** One of the loops of ReleasePages, huge_page_filler.h:1633-1657, 1661-1687; the OS may answer
    differently each round; [ans]: the answers that are possible. *)
Inductive release_rounds (N : Z) (sub : bool) (ans : (Z -> Z -> Z -> bool) -> Prop) (visited : filler -> option (list Z)) (desired : Z) : filler -> Z -> filler -> Z -> Prop :=
| rd_done f total : desired <= total -> release_rounds N sub ans visited desired f total f total
| rd_stop f total l c c' os f' : total < desired -> visited f = Some l -> select_candidates N f [] l c -> sorts_to (fl_tr f) c c' ->
    ans os -> release_candidates N sub f c' (desired - total) os = Some (f', 0) -> release_rounds N sub ans visited desired f total f' total
| rd_more f total l c c' os f1 r f' total' : total < desired -> visited f = Some l -> select_candidates N f [] l c -> sorts_to (fl_tr f) c c' ->
    ans os -> release_candidates N sub f c' (desired - total) os = Some (f1, r) -> r <> 0 ->
    release_rounds N sub ans visited desired f1 (total + r) f' total' -> release_rounds N sub ans visited desired f total f' total'.

(** Helpers for statistics, huge_page_filler.h:2568-2570, 785-798. *)
Definition fl_used_pages (f : filler) : Z := fl_alloc f false + fl_alloc f true.
Definition fl_free_pages (N : Z) (f : filler) : Z := fl_size f * N - fl_used_pages f - fl_unmapped f.
(** FreePagesInPartialAllocs, huge_page_filler.h:1496-1510. *)
Definition free_in_partial (N : Z) (f : filler) : Z :=
  (hsize (fl_lists f (LPart false)) + hsize (fl_lists f (LPart true)) + hsize (fl_lists f (LRel false)) + hsize (fl_lists f (LRel true))) * N -
  (fl_used_rel f true + fl_used_rel f false + (fl_used_part f true + fl_used_part f false)) - fl_unmapped f.

(** GetDesiredSubreleasePages, huge_page_filler.h:1513-1571, with skipping enabled; [required] is what the
    statistics say is needed. *)
Definition desired_subrelease (N : Z) (f : filler) (desired total required : Z) : Z :=
  let current := fl_used_pages f + fl_free_pages N f in
  if negb (required =? 0) then
    let new_desired := if current <=? required then total else total + (current - required) in
    if desired <=? new_desired then desired else new_desired
  else desired.

(** ReleasePages, huge_page_filler.h:1577-1690.  [from_partial]: what kPartialAllocPagesRelease adds, a floating-point
    product, or 0; [skip]: the pages that skipping subrelease requires, if it applies. *)
Inductive release_pages (N : Z) (sub : bool) (ans : (Z -> Z -> Z -> bool) -> Prop) (f : filler) (desired from_partial : Z) (skip : option Z) : filler -> Z -> Prop :=
| rp_enough : Z.max desired from_partial <= fl_unaccounted f ->
    release_pages N sub ans f desired from_partial skip (if 0 <? fl_unaccounted f then set_unaccounted f 0 else f) (Z.max 0 (fl_unaccounted f))
| rp_skip required : fl_unaccounted f < Z.max desired from_partial -> skip = Some required ->
    desired_subrelease N f (Z.max desired from_partial) (fl_unaccounted f) required <= fl_unaccounted f ->
    release_pages N sub ans f desired from_partial skip (set_unaccounted f 0) (fl_unaccounted f)
| rp_release desired1 f1 total1 f2 total2 : fl_unaccounted f < Z.max desired from_partial ->
    desired1 = match skip with None => Z.max desired from_partial | Some required => desired_subrelease N f (Z.max desired from_partial) (fl_unaccounted f) required end ->
    fl_unaccounted f < desired1 ->
    release_rounds N sub ans (visited_partial N) desired1 (set_unaccounted f 0) (fl_unaccounted f) f1 total1 ->
    release_rounds N sub ans (visited_regular N) desired1 f1 total1 f2 total2 ->
    release_pages N sub ans f desired from_partial skip f2 total2.

(** HandleReleaseFree, huge_page_filler.h:1896-1905. *)
Definition handle_release_free (N : Z) (sub : bool) (f : filler) (x : Z) (os : Z -> Z -> bool) : option (filler * Z) :=
  let? (f, ret) := release_tracker N sub f x os in
  Some (set_unaccounted f (fl_unaccounted f + ret), ret).

(** OnCollapseSuccess, huge_page_filler.h:1908-1913. *)
Definition on_collapse_success (N : Z) (sub : bool) (f : filler) (x : Z) : filler :=
  if pt_unbroken (fl_tr f x) then f
  else
    let f := fl_remove N sub f x in
    let f := put_tracker f x (pt_set_unbroken (fl_tr f x) true) in
    fl_add N sub f x.

(** HandleUnbackedHugePage, huge_page_filler.h:1916-1925. *)
Definition handle_unbacked (N : Z) (sub : bool) (f : filler) (x : Z) (unbacked : words) : filler * Z :=
  let f := fl_remove N sub f x in
  let '(t, n) := pt_mark_subreleased N (fl_tr f x) unbacked in
  let f := put_tracker f x t in
  let f := set_unmapped f (fl_unmapped f + n) in
  let f := set_unaccounted f (fl_unaccounted f + n) in
  (fl_add N sub f x, n).
