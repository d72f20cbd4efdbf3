(** Model of huge_page_aware_allocator.h: the page allocator that New and Delete go through.  It is put together from
    the filler (Filler.v), the hugepage cache and the address space below it (HugeCache.v, HugeAllocator.v) and the
    regions (HugeRegion.v).

    [P] is the number of pages in a hugepage, [K] the number of hugepages in a region.  A hugepage is its index, a
    page its PageId.  The tracker of hugepage [x] is [fl_tr (hp_filler a) x]; whether the pagemap knows one for [x]
    (GetTracker(x) != nullptr) is [hp_tracker a x].  The members of PageTracker that only serve this file's
    statistics (was_donated, abandoned_count, abandoned) are kept here rather than in the tracker.

    ShrinkToUsageLimit and HugeCache::Release can give memory back to the system, which drops the lock.  What they
    do then are the operations on the parts that follow as separate steps in HpaaProps.v; so a small allocation that
    takes a new hugepage is two steps ([AHold], [hp_refill_end]), since RefillFiller calls ShrinkToUsageLimit while it
    holds the hugepage (huge_page_aware_allocator.h:573).  Span objects, prefetching, forwarder_.Back, madvise and
    the histograms of info_ (stats.cc) are not modelled: of info_ only the two totals that decide where memory comes
    from. *)
From Verif Require Import Base Bitmap PageTracker HugeRegion HintedLists Filler HugeAddressMap HugeAllocator HugeCache.

(** huge_page_aware_allocator.h:378-443: the members. *)
Record hpaa := Hpaa {
  hp_filler : filler;
  hp_cache : hcache;               (* with alloc_ in it *)
  hp_regions : region_set;
  hp_tracker : Z -> bool;          (* GetTracker(x) != nullptr *)
  hp_was_donated : Z -> bool;      (* PageTracker::was_donated *)
  hp_ab_count : Z -> Z;            (* PageTracker::abandoned_count *)
  hp_abandoned : Z -> bool;        (* PageTracker::abandoned *)
  hp_donated : Z;                  (* donated_huge_pages_ *)
  hp_ab_pages : Z;                 (* abandoned_pages_ *)
  hp_small : Z;                    (* info_.small() *)
  hp_slack : Z }.                  (* info_.slack() *)

(** huge_page_aware_allocator.h:506-522. *)
Definition hp_init (t0 : Z -> ptracker) (more_often : bool) : hpaa :=
  Hpaa (filler_init t0) hc_init (rs_new more_often) (fun _ => false) (fun _ => false) (fun _ => 0) (fun _ => false) 0 0 0 0.

Definition hp_set_filler (a : hpaa) v := Hpaa v (hp_cache a) (hp_regions a) (hp_tracker a) (hp_was_donated a) (hp_ab_count a) (hp_abandoned a) (hp_donated a) (hp_ab_pages a) (hp_small a) (hp_slack a).
Definition hp_set_cache (a : hpaa) v := Hpaa (hp_filler a) v (hp_regions a) (hp_tracker a) (hp_was_donated a) (hp_ab_count a) (hp_abandoned a) (hp_donated a) (hp_ab_pages a) (hp_small a) (hp_slack a).
Definition hp_set_regions (a : hpaa) v := Hpaa (hp_filler a) (hp_cache a) v (hp_tracker a) (hp_was_donated a) (hp_ab_count a) (hp_abandoned a) (hp_donated a) (hp_ab_pages a) (hp_small a) (hp_slack a).
(** huge_page_aware_allocator.h:534-537: whether there is one. *)
Definition hp_set_tracker (a : hpaa) x b := Hpaa (hp_filler a) (hp_cache a) (hp_regions a) (upd (hp_tracker a) x b) (hp_was_donated a) (hp_ab_count a) (hp_abandoned a) (hp_donated a) (hp_ab_pages a) (hp_small a) (hp_slack a).
Definition hp_set_was_donated (a : hpaa) x b := Hpaa (hp_filler a) (hp_cache a) (hp_regions a) (hp_tracker a) (upd (hp_was_donated a) x b) (hp_ab_count a) (hp_abandoned a) (hp_donated a) (hp_ab_pages a) (hp_small a) (hp_slack a).
Definition hp_set_ab_count (a : hpaa) x n := Hpaa (hp_filler a) (hp_cache a) (hp_regions a) (hp_tracker a) (hp_was_donated a) (upd (hp_ab_count a) x n) (hp_abandoned a) (hp_donated a) (hp_ab_pages a) (hp_small a) (hp_slack a).
Definition hp_set_abandoned (a : hpaa) x b := Hpaa (hp_filler a) (hp_cache a) (hp_regions a) (hp_tracker a) (hp_was_donated a) (hp_ab_count a) (upd (hp_abandoned a) x b) (hp_donated a) (hp_ab_pages a) (hp_small a) (hp_slack a).
Definition hp_set_donated (a : hpaa) v := Hpaa (hp_filler a) (hp_cache a) (hp_regions a) (hp_tracker a) (hp_was_donated a) (hp_ab_count a) (hp_abandoned a) v (hp_ab_pages a) (hp_small a) (hp_slack a).
Definition hp_set_ab_pages (a : hpaa) v := Hpaa (hp_filler a) (hp_cache a) (hp_regions a) (hp_tracker a) (hp_was_donated a) (hp_ab_count a) (hp_abandoned a) (hp_donated a) v (hp_small a) (hp_slack a).
Definition hp_set_info (a : hpaa) s k := Hpaa (hp_filler a) (hp_cache a) (hp_regions a) (hp_tracker a) (hp_was_donated a) (hp_ab_count a) (hp_abandoned a) (hp_donated a) (hp_ab_pages a) s k.

(** huge_pages.h:140-143: the hugepages that [n] pages take. *)
Definition hl_from_pages (P n : Z) : Z := n / P + (if n mod P =? 0 then 0 else 1).

(** stats.cc:278-291 and stats.cc:293-303, with sign +1 and -1.
    kMaxPages is 1 MiB, half a hugepage.  RoundUp as the next multiple (stats.cc:273-276; P is a power of two). *)
Definition record (P sign : Z) (a : hpaa) (n : Z) : hpaa :=
  if n <=? P / 2 then hp_set_info a (hp_small a + sign * n) (hp_slack a)
  else hp_set_info a (hp_small a) (hp_slack a + sign * (hl_from_pages P n * P - n)).

(** huge_page_aware_allocator.h:540-558.
    [d]: the span is for a size class with many objects (AccessDensityPrediction::kDense), [o]: objects per span. *)
Definition alloc_and_contribute (P : Z) (sub : bool) (a : hpaa) (x n : Z) (d : bool) (o : Z) (donated : bool) : option (hpaa * Z) :=
  if x =? 0 then None
  else
    let a := hp_set_abandoned (hp_set_was_donated a x donated) x false in
    let a := hp_set_ab_count a x (if donated then n else 0) in
    let? (t, i, _) := pt_get P (pt_new P donated) n o in
    let a := hp_set_tracker a x true in
    Some (hp_set_filler a (fl_contribute P sub (hp_filler a) x t donated d), x * P + i).

(** What the environment decides for a request for hugepages: the range the system grants, if it is asked; the
    priorities of new nodes of the address maps; two answers of the statistics that size the cache. *)
Record henv := HEnv { e_os : option hrange; e_p1 : Z; e_p2 : Z; e_shrink : Z; e_umin : Z }.
(** What the system granted (ghost result, used to state the theorems). *)
Definition granted (asked : bool) (os : option hrange) : list hrange :=
  if asked then match os with Some g => [g] | None => [] end else [].

(** The outcome of an allocation: a range (page, length, donated, from_released); no memory; or a hugepage held while
    the lock is dropped. *)
Inductive aout := ADone (p n : Z) (donated from_released : bool) | AFail | AHold (x : Z) (from_released : bool).

(** cache_.Get, as used below: a range, or not. *)
Definition hp_get (a : hpaa) (n : Z) (e : henv) : option (option (hrange * bool) * hpaa * list hrange) :=
  let? (res, fr, asked, c) := hc_get (hp_cache a) n (e_os e) (e_p1 e) (e_p2 e) (e_shrink e) (e_umin e) in
  match res with
  | None => Some (None, hp_set_cache a c, [])
  | Some r => Some (Some (r, fr), hp_set_cache a c, granted asked (e_os e))
  end.

(** huge_page_aware_allocator.h:579-593, the accounting. *)
Definition finalize (P : Z) (a : hpaa) (n : Z) : hpaa := record P 1 a n.

(** huge_page_aware_allocator.h:599-613, up to the point where
    RefillFiller (huge_page_aware_allocator.h:561-575) can drop
    the lock. *)
Definition alloc_small (P : Z) (sub : bool) (a : hpaa) (n : Z) (d : bool) (o : Z) (e : henv) : option (hpaa * aout * list hrange) :=
  let? (f, r) := try_get P sub (hp_filler a) n d o in
  let a := hp_set_filler a f in
  match r with
  | Some (x, i, released) => Some (finalize P a n, ADone (x * P + i) n false released, [])
  | None =>
    let? (res, a, g) := hp_get a 1 e in
    match res with
    | None => Some (a, AFail, [])
    | Some (r, fr) => Some (a, AHold (fst r) fr, g)
    end
  end.
(** The rest of RefillFiller and of AllocSmall. *)
Definition hp_refill_end (P : Z) (sub : bool) (a : hpaa) (x n : Z) (d : bool) (o : Z) : option (hpaa * Z) :=
  let? (a, page) := alloc_and_contribute P sub a x n d o false in
  Some (finalize P a n, page).

(** huge_page_aware_allocator.h:691-725. *)
Definition alloc_raw (P : Z) (sub : bool) (a : hpaa) (n : Z) (d : bool) (o : Z) (e : henv) : option (hpaa * aout * list hrange) :=
  let hl := hl_from_pages P n in
  let? (res, a, g) := hp_get a hl e in
  match res with
  | None => Some (a, AFail, [])
  | Some (r, fr) =>
    let total := hl * P in
    let slack := total - n in
    let first := fst r in
    let a := hp_set_tracker a first false in
    let last := first + snd r - 1 in
    if slack =? 0 then
      let a := hp_set_tracker a last false in
      Some (finalize P a total, ADone (first * P) total false fr, g)
    else
      let a := hp_set_donated a (hp_donated a + 1) in
      let? (a, _) := alloc_and_contribute P sub a last (P - slack) d o true in
      Some (finalize P a n, ADone (first * P) n true fr, g)
  end.

(** huge_page_aware_allocator.h:854-870. *)
Definition add_region (P K : Z) (a : hpaa) (e : henv) : option (bool * hpaa * list hrange) :=
  let? (res, asked, al) := ha_get (hc_alloc (hp_cache a)) K (e_os e) (e_p1 e) (e_p2 e) in
  let a := hp_set_cache a (hc_set_alloc (hp_cache a) al) in
  match res with
  | None => Some (false, a, [])
  | Some r => Some (true, hp_set_regions a (rs_contribute (hp_regions a) (rg_new P K (fst r))), granted asked (e_os e))
  end.

(** HLFromBytes(64 MiB) in pages (huge_page_aware_allocator.h:656), with hugepages of 2 MiB. *)
Definition min_slack (P : Z) : Z := 32 * P.

(** huge_page_aware_allocator.h:617-679.  [er], [e]: the answers to
    AddRegion and to AllocRawHugepages. *)
Definition alloc_large (P K : Z) (sub : bool) (a : hpaa) (n : Z) (d : bool) (o : Z) (er e : henv) : option (hpaa * aout * list hrange) :=
  if hl_from_pages P n * P =? n then alloc_raw P sub a n d o e
  else
    let? (f, r) := (if n <? P then try_get P sub (hp_filler a) n d o else Some (hp_filler a, None)) in
    let a := hp_set_filler a f in
    match r with
    | Some (x, i, released) => Some (finalize P a n, ADone (x * P + i) n false released, [])
    | None =>
      let? (s, r) := rs_get P K (hp_regions a) n in
      let a := hp_set_regions a s in
      match r with
      | Some (p, fr) => Some (finalize P a n, ADone p n false fr, [])
      | None =>
        let slack := hp_slack a in
        let donated := if rs_more_often (hp_regions a) then hp_ab_pages a + slack else slack in
        if donated <? min_slack P then alloc_raw P sub a n d o e
        else if (slack <? hp_small a) && negb (rs_more_often (hp_regions a)) then alloc_raw P sub a n d o e
        else
          let? (ok, a, g) := add_region P K a er in
          if ok then
            let? (s, r) := rs_get P K (hp_regions a) n in
            let a := hp_set_regions a s in
            match r with
            | Some (p, fr) => Some (finalize P a n, ADone p n false fr, g)
            | None => None
            end
          else alloc_raw P sub a n d o e
      end
    end.

(** huge_page_aware_allocator.h:729-745 and
    huge_page_aware_allocator.h:749-768. *)
Definition hp_new (P K : Z) (sub : bool) (a : hpaa) (n : Z) (d : bool) (o : Z) (er e : henv) : option (hpaa * aout * list hrange) :=
  if 0 <? n then
    if n <=? P / 2 then alloc_small P sub a n d o e
    else if n <=? K * P then alloc_large P K sub a n d o er e
    else alloc_raw P sub a n d o e
  else None.

(** huge_page_aware_allocator.h:772-798. *)
Definition hp_new_aligned (P K : Z) (sub : bool) (a : hpaa) (n align : Z) (d : bool) (o : Z) (er e : henv) : option (hpaa * aout * list hrange) :=
  if align <=? 1 then hp_new P K sub a n d o er e
  else if align <=? P then alloc_raw P sub a n d o e
  else None.

(** huge_page_aware_allocator.h:969-995; the cache's
    shrinking is a separate step.  [pr]: the priority of a new node. *)
Definition release_hugepage (a : hpaa) (x : Z) (pr : Z) : option hpaa :=
  let a :=
    if hp_was_donated a x then
      let a := hp_set_donated a (hp_donated a - 1) in
      if hp_abandoned a x then hp_set_abandoned (hp_set_ab_pages a (hp_ab_pages a - hp_ab_count a x)) x false else a
    else a in
  let a := hp_set_tracker a x false in
  let? c := (if pt_released (fl_tr (hp_filler a) x) then hc_release_unbacked (hp_cache a) (x, 1) pr
             else hc_release_insert (hp_cache a) (x, 1) pr) in
  Some (hp_set_cache a c).

(** The pages of a donated hugepage count as abandoned (huge_page_aware_allocator.h:845-846, :945-946). *)
Definition abandon (a : hpaa) (x : Z) : hpaa := hp_set_abandoned (hp_set_ab_pages a (hp_ab_pages a + hp_ab_count a x)) x true.

(** huge_page_aware_allocator.h:837-851.  [os]: whether
    the rest of the hugepage can be unbacked. *)
Definition delete_from_hugepage (P : Z) (sub : bool) (a : hpaa) (x p n : Z) (might_abandon : bool) (o : Z) (os : bool) (pr : Z) : option hpaa :=
  let? (f, r) := fl_put P sub (hp_filler a) x (p - x * P) n o os in
  let a := hp_set_filler a f in
  match r with
  | None => Some (if might_abandon then abandon a x else a)
  | Some _ => release_hugepage a x pr
  end.

(** huge_page_aware_allocator.h:888-966, up to the
    cache's shrinking.  [osr]: which hugepages of a region the system takes back. *)
Definition hp_delete (P K : Z) (sub : bool) (a : hpaa) (p n : Z) (donated : bool) (o : Z) (os : bool) (osr : Z -> Z -> bool) (pr1 pr2 : Z) : option hpaa :=
  let hp := p / P in
  let a := record P (-1) a n in
  if hp_tracker a hp then delete_from_hugepage P sub a hp p n donated o os pr1
  else
    let? r := rs_put P K osr (hp_regions a) p n in
    match r with
    | Some (s, _) => Some (hp_set_regions a s)
    | None =>
      let hl := hl_from_pages P n in
      let last := hp + hl - 1 in
      let slack := hl * P - n in
      let? (a, hl) :=
        (if slack =? 0 then Some (a, hl)
         else if negb (hp_tracker a last) then None
         else
           let? (f, r) := fl_put P sub (hp_filler a) last 0 (P - slack) o os in
           let a := hp_set_filler a f in
           match r with
           | None => Some (abandon a last, hl - 1)
           | Some _ =>
             if pt_released (fl_tr (hp_filler a) last) then
               let? a := release_hugepage a last pr1 in Some (a, hl - 1)
             else Some (hp_set_tracker (hp_set_donated a (hp_donated a - 1)) last false, hl)
           end) in
      let? c := hc_release_insert (hp_cache a) (hp, hl) pr2 in
      Some (hp_set_cache a c)
    end.

(** One round of the loop of TreatHugepageTrackers (huge_page_aware_allocator.h:1096-1098). *)
Definition fetch_release (a : hpaa) (pr : Z) : option hpaa :=
  match fl_fetch (hp_filler a) with
  | (None, f) => Some (hp_set_filler a f)
  | (Some x, f) => release_hugepage (hp_set_filler a f) x pr
  end.

(** huge_page_aware_allocator.h:999-1010, in pages:
    (system, free, unmapped).  HugeAllocator::stats and HugeCache::stats: huge_allocator.h:77-83, huge_cache.h:193-199. *)
Definition hp_stats (P K : Z) (a : hpaa) : Z * Z * Z :=
  let '(_, rfree, runmapped) := rs_stats P K (hp_regions a) in
  (ha_system (hc_alloc (hp_cache a)) * P,
   0 + hc_size (hp_cache a) * P + fl_free_pages P (hp_filler a) + rfree,
   ha_size (hc_alloc (hp_cache a)) * P + 0 + fl_unmapped (hp_filler a) + runmapped).

(** The parts of a release that do not break up hugepages: the cache, and the regions if [regions].  The system's
    answers: [os1], [os2] to the cache's calls, [osr] to the regions'.  Without other threads in between. *)
Record renv := REnv { v_size_min : Z; v_os1 : Z -> bool; v_os2 : Z -> bool; v_pr1 : Z -> Z; v_pr2 : Z -> Z; v_osr : Z -> Z -> bool }.
Definition release_whole (P K : Z) (a : hpaa) (n : Z) (regions adaptive hit_limit : bool) (v : renv) : option (hpaa * Z) :=
  let? (c, h) := hc_release_cached (hp_cache a) (hl_from_pages P n) (v_size_min v) (v_os1 v) (v_os2 v) (v_pr1 v) (v_pr2 v) in
  let a := hp_set_cache a h in
  let released := c * P in
  if regions then
    let? (s, r, _) := rs_release P K (v_osr v) (hp_regions a) (if released <? n then n - released else 0) adaptive hit_limit in
    Some (hp_set_regions a s, released + r)
  else Some (a, released).

(** huge_page_aware_allocator.h:1044-1083.  [subrelease]:
    hpaa_subrelease(); [max_cold]: release_max_cold, when [len_max] (Length::max()) is asked for; [ans], [from_partial],
    [skip] as for Filler.release_pages. *)
Inductive hp_release (P K : Z) (sub : bool) (a : hpaa) (n : Z) (adaptive subrelease max_cold : bool) (len_max : Z)
    (v : renv) (ans : (Z -> Z -> Z -> bool) -> Prop) (from_partial : Z) (skip : option Z) : hpaa -> Z -> Prop :=
| hr_whole a1 r1 : release_whole P K a n (rs_more_often (hp_regions a)) adaptive false v = Some (a1, r1) ->
    subrelease && ((r1 <? n) || max_cold) = false ->
    hp_release P K sub a n adaptive subrelease max_cold len_max v ans from_partial skip a1 r1
| hr_break a1 r1 f2 r2 : release_whole P K a n (rs_more_often (hp_regions a)) adaptive false v = Some (a1, r1) ->
    subrelease && ((r1 <? n) || max_cold) = true ->
    release_pages P sub ans (hp_filler a1) (if max_cold then len_max else n - r1) from_partial skip f2 r2 ->
    hp_release P K sub a n adaptive subrelease max_cold len_max v ans from_partial skip (hp_set_filler a1 f2) (r1 + r2).

(** huge_page_aware_allocator.h:1253-1280. *)
Inductive hp_release_breaking (P K : Z) (sub : bool) (a : hpaa) (n : Z) (adaptive : bool) (v : renv)
    (ans : (Z -> Z -> Z -> bool) -> Prop) : hpaa -> Z -> Prop :=
| hb_whole a1 r1 : release_whole P K a n true adaptive true v = Some (a1, r1) -> n <= r1 ->
    hp_release_breaking P K sub a n adaptive v ans a1 r1
| hb_break a1 r1 f2 r2 : release_whole P K a n true adaptive true v = Some (a1, r1) -> r1 < n ->
    release_pages P sub ans (hp_filler a1) (n - r1) 0 None f2 r2 ->
    hp_release_breaking P K sub a n adaptive v ans (hp_set_filler a1 f2) (r1 + r2).
