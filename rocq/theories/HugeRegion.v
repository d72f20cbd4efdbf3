(** Model of tcmalloc/huge_region.h: a region of [K] hugepages of [P] pages each
    (kNumHugePages and kPagesPerHugePage) and the set of regions.  The regions are
    constructed with the [unback] that keeps the page-heap lock
    (huge_page_aware_allocator.h:867, 291-309), so an operation is one step.
    [None] is the result when a TC_CHECK or a TC_ASSERT fails or an array index is out of
    bounds.  Not modelled: the names given to mappings and the printed reports. *)
From Verif Require Import Base Bitmap.

(** The members, huge_region.h:143-166; [rg_loc] is the number of the first hugepage. *)
Record region := Region {
  rg_t : tracker;
  rg_loc : Z;
  rg_used : Z -> Z;          (* pages_used_ *)
  rg_backed : Z -> bool;     (* backed_ *)
  rg_nbacked : Z;
  rg_total_unbacked : Z;
  rg_free_backed : Z }.      (* free_backed_count_ *)

(** The constructor, huge_region.h:284-305. *)
Definition rg_new (P K loc : Z) : region :=
  Region (rt_init (K * P)) loc (fun _ => 0) (fun _ => false) 0 0 0.

Definition rg_with_t (r : region) (t : tracker) : region :=
  Region t (rg_loc r) (rg_used r) (rg_backed r) (rg_nbacked r) (rg_total_unbacked r) (rg_free_backed r).
Definition rg_with_used (r : region) (u : Z -> Z) : region :=
  Region (rg_t r) (rg_loc r) u (rg_backed r) (rg_nbacked r) (rg_total_unbacked r) (rg_free_backed r).
Definition rg_with_backed (r : region) (b : Z -> bool) (nb tu : Z) : region :=
  Region (rg_t r) (rg_loc r) (rg_used r) b nb tu (rg_free_backed r).
Definition rg_with_free_backed (r : region) (c : Z) : region :=
  Region (rg_t r) (rg_loc r) (rg_used r) (rg_backed r) (rg_nbacked r) (rg_total_unbacked r) c.

(** Inc, huge_region.h:458-481: the loop.  The result says whether a hugepage was backed. *)
Fixpoint inc_loop (fuel : nat) (P K : Z) (r : region) (p n : Z) (should : bool) : option (region * bool) :=
  if 0 <? n then
    match fuel with
    | O => None
    | S fuel =>
      let hp := p / P in
      let i := hp - rg_loc r in
      let here := Z.min n ((hp + 1) * P - p) in
      if (0 <=? i) && (i <? K) then
        let? (r, should) :=
          if rg_used r i =? 0 then
            if rg_backed r i then
              if 0 <? rg_free_backed r then Some (rg_with_free_backed r (rg_free_backed r - 1), should) else None
            else Some (rg_with_backed r (upd (rg_backed r) i true) (rg_nbacked r + 1) (rg_total_unbacked r), true)
          else Some (r, should) in
        let u := rg_used r i + here in
        if u <=? P then inc_loop fuel P K (rg_with_used r (upd (rg_used r) i u)) (p + here) (n - here) should
        else None
      else None
    end
  else Some (r, should).

(** MaybeGet, huge_region.h:307-318: the page and from_released, or that no range is available. *)
Definition rg_get (P K : Z) (r : region) (n : Z) : option (region * option (Z * bool)) :=
  if rt_longest (rg_t r) <? n then Some (r, None)
  else
    let? (t, index) := find_and_mark (K * P) (rg_t r) n in
    let page := rg_loc r * P + index in
    let? (r, from_released) := inc_loop (Z.to_nat n) P K (rg_with_t r t) page n false in
    Some (r, Some (page, from_released)).

(** Dec, huge_region.h:483-504: the loop. *)
Fixpoint dec_loop (fuel : nat) (P K : Z) (r : region) (p n : Z) (should : Z -> bool) : option (region * (Z -> bool)) :=
  if 0 <? n then
    match fuel with
    | O => None
    | S fuel =>
      let hp := p / P in
      let i := hp - rg_loc r in
      let here := Z.min n ((hp + 1) * P - p) in
      if (0 <=? i) && (i <? K) then
        if (0 <? here) && (here <=? rg_used r i) && rg_backed r i then
          let u := rg_used r i - here in
          let r := rg_with_used r (upd (rg_used r) i u) in
          if u =? 0 then
            dec_loop fuel P K (rg_with_free_backed r (rg_free_backed r + 1)) (p + here) (n - here) (upd should i true)
          else dec_loop fuel P K r (p + here) (n - here) should
        else None
      else None
    end
  else Some (r, should).

(** huge_region.h:515-518: the end of the run of hugepages to unback. *)
Fixpoint run_end (fuel : nat) (K : Z) (should : Z -> bool) (j : Z) : Z :=
  match fuel with
  | O => j
  | S fuel => if (j <? K) && should j then run_end fuel K should (j + 1) else j
  end.

(** huge_region.h:532-534, 555-557: the sum of the old values, and the array in which the entries
    from [i] to [j] are [v]. *)
Definition used_sum (used : Z -> Z) (i j : Z) : Z := zsum (map used (zseq i (Z.to_nat (j - i)))).
Definition used_fill (used : Z -> Z) (i j v : Z) : Z -> Z := fun k => if (i <=? k) && (k <? j) then v else used k.

(** UnbackHugepages, huge_region.h:506-569.  [os h n]: whether the call that unbacks the [n]
    hugepages from [h] succeeds.  The result: the region, how many hugepages were released, and
    the calls in order. *)
Fixpoint unback_loop (fuel : nat) (P K : Z) (os : Z -> Z -> bool) (r : region) (should : Z -> bool) (i : Z)
  : option (region * Z * list (Z * Z)) :=
  if i <? K then
    match fuel with
    | O => None
    | S fuel =>
      if should i then
        let j := run_end (Z.to_nat (K - i)) K should i in
        let hl := j - i in
        let p := rg_loc r + i in
        let? t := mark (K * P) (rg_t r) (i * P) (hl * P) in
        let used := used_sum (rg_used r) i j in
        let r := rg_with_used (rg_with_t r t) (used_fill (rg_used r) i j P) in
        if (used =? 0) && (hl <=? rg_free_backed r) then
          let r := rg_with_free_backed r (rg_free_backed r - hl) in
          let r :=
            if os p hl then
              rg_with_backed r (fun k => if (i <=? k) && (k <? j) then false else rg_backed r k)
                (rg_nbacked r - hl) (rg_total_unbacked r + hl)
            else rg_with_free_backed r (rg_free_backed r + hl) in
          let used := used_sum (rg_used r) i j in
          let r := rg_with_used r (used_fill (rg_used r) i j 0) in
          if used =? hl * P then
            let? t := unmark (K * P) (rg_t r) (i * P) (hl * P) in
            let? (r', released, calls) := unback_loop fuel P K os (rg_with_t r t) should j in
            Some (r', (if os p hl then hl else 0) + released, (p, hl) :: calls)
          else None
        else None
      else unback_loop fuel P K os r should (i + 1)
    end
  else Some (r, 0, []).
Definition unback_hugepages (P K : Z) (os : Z -> Z -> bool) (r : region) (should : Z -> bool)
  : option (region * Z * list (Z * Z)) :=
  unback_loop (Z.to_nat K) P K os r should 0.

(** Put, huge_region.h:321-326, and the end of Dec: the region and the calls to the OS. *)
Definition rg_put (P K : Z) (os : Z -> Z -> bool) (r : region) (p n : Z) (release : bool)
  : option (region * list (Z * Z)) :=
  let? t := unmark (K * P) (rg_t r) (p - rg_loc r * P) n in
  let? (r, should) := dec_loop (Z.to_nat n) P K (rg_with_t r t) p n (fun _ => false) in
  if release then
    let? (r, _, calls) := unback_hugepages P K os r should in
    Some (r, calls)
  else Some (r, []).

(** Release, huge_region.h:333-355: the scan over the hugepages [l]. *)
Fixpoint release_scan (P : Z) (r : region) (l : list Z) (to_release target : Z) (should : Z -> bool) : Z -> bool :=
  match l with
  | [] => should
  | i :: l =>
    let hit := rg_backed r i && (rg_used r i =? 0) in
    let should := if hit then upd should i true else should in
    let target := if hit then target + 1 else target in
    if to_release <=? target * P then should else release_scan P r l to_release target should
  end.
Definition rg_release (P K : Z) (os : Z -> Z -> bool) (r : region) (desired : Z) (adaptive : bool)
  : option (region * Z * list (Z * Z)) :=
  if desired =? 0 then Some (r, 0, [])
  else
    let to_release := Z.min desired (rg_free_backed r * P) in
    let order := zseq 0 (Z.to_nat K) in
    unback_hugepages P K os r
      (release_scan P r (if adaptive then rev order else order) to_release 0 (fun _ => false)).

(** Statistics, huge_region.h:103-107, 413-424. *)
Definition rg_used_pages (r : region) : Z := rt_nused (rg_t r).
Definition rg_unmapped_pages (P K : Z) (r : region) : Z := (K - rg_nbacked r) * P.
Definition rg_free_pages (P K : Z) (r : region) : Z := K * P - rg_unmapped_pages P K r - rg_used_pages r.
Definition rg_backed_count (K : Z) (r : region) : Z := zcount (rg_backed r) 0 (Z.to_nat K).
Definition rg_longest (r : region) : Z := rt_longest (rg_t r).

(** AddSpanStats, huge_region.h:357-411.  The runs it counts: first page (from the start of the
    region), length, and whether it is released.  The histogram they are entered in is not
    modelled.  First the inner loop :372-379, which truncates a free range. *)
Fixpoint truncate_loop (fuel : nat) (P K : Z) (backed : Z -> bool) (b : bool) (i p n acc : Z) : option Z :=
  if 0 <? n then
    if i <? K then
      if Bool.eqb (backed i) b then
        match fuel with
        | O => None
        | S fuel =>
          let here := Z.min n ((i + 1) * P - p) in
          truncate_loop fuel P K backed b (i + 1) (p + here) (n - here) (acc + here)
        end
      else Some acc
    else None
  else Some acc.
Fixpoint rg_runs_loop (fuel : nat) (P K : Z) (bits : words) (backed : Z -> bool) (index : Z) : option (list (Z * Z * bool)) :=
  match fuel with
  | O => None
  | S fuel =>
    let? x := next_free_range (K * P) bits index in
    match x with
    | None => Some []
    | Some (i, n) =>
      let b := backed (i / P) in
      let? n := truncate_loop (Z.to_nat (K + 1)) P K backed b (i / P) i n 0 in
      let? l := rg_runs_loop fuel P K bits backed (i + n) in
      Some ((i, n, negb b) :: l)
    end
  end.
Definition rg_span_runs (P K : Z) (r : region) : option (list (Z * Z * bool)) :=
  let? l := rg_runs_loop (range_fuel (K * P)) P K (rt_bits (rg_t r)) (rg_backed r) 0 in
  let total released := zsum (map (fun x => if Bool.eqb (snd x) released then snd (fst x) else 0) l) in
  if (total false =? rg_free_pages P K r) && (total true =? rg_unmapped_pages P K r) then Some l else None.

(** ** HugeRegionSet, huge_region.h:171-280.  A region is identified with its place in the list. *)
Record region_set := RegionSet {
  rs_list : list region;
  rs_n : Z;
  rs_more_often : bool;      (* UseHugeRegionMoreOften() *)
  rs_free_backed : Z;        (* free_backed_count_ *)
  rs_low : Z }.              (* lowater_free_backed_ *)

Definition rs_new (more_often : bool) : region_set := RegionSet [] 0 more_often 0 0.   (* :173-177 *)

(** BetterToAllocThan, huge_region.h:138-140. *)
Definition better (a b : region) : bool := rg_longest a <? rg_longest b.

(** Rise, huge_region.h:232-245.  [before]: the regions before [r], nearest first. *)
Fixpoint rise (before : list region) (r : region) (after : list region) : list region * list region :=
  match before with
  | [] => ([], after)
  | q :: before' => if better r q then rise before' r (q :: after) else (before, after)
  end.
(** Fall, huge_region.h:248-261. *)
Fixpoint fall (before : list region) (r : region) (after : list region) : list region * list region :=
  match after with
  | [] => (before, [])
  | q :: after' => if better q r then fall (q :: before) r after' else (before, after)
  end.
(** Fix, huge_region.h:224-229. *)
Definition fix_list (before : list region) (r : region) (after : list region) : list region :=
  let '(b, a) := rise before r after in
  let '(b, a) := fall b r a in
  rev_append b (r :: a).
(** AddToList, huge_region.h:264-274. *)
Fixpoint add_to_list (l : list region) (r : region) : list region :=
  match l with
  | [] => [r]
  | q :: l' => if better r q then r :: l else q :: add_to_list l' r
  end.

(** MaybeGet, huge_region.h:575-592; [before]: the regions that have been tried, the last first. *)
Fixpoint rs_get_loop (P K : Z) (s : region_set) (before after : list region) (n : Z)
  : option (region_set * option (Z * bool)) :=
  match after with
  | [] => Some (s, None)
  | r :: after =>
    let? (r', res) := rg_get P K r n in
    match res with
    | None => rs_get_loop P K s (r' :: before) after n
    | Some x =>
      let diff := rg_free_backed r - rg_free_backed r' in
      if (0 <=? diff) && (diff <=? rs_free_backed s) then
        let c := rs_free_backed s - diff in
        Some (RegionSet (fix_list before r' after) (rs_n s) (rs_more_often s) c (Z.min (rs_low s) c), Some x)
      else None
    end
  end.
Definition rs_get (P K : Z) (s : region_set) (n : Z) : option (region_set * option (Z * bool)) :=
  rs_get_loop P K s [] (rs_list s) n.

(** contains, huge_region.h:87. *)
Definition rg_contains (P K : Z) (r : region) (p : Z) : bool :=
  (rg_loc r * P <=? p) && (p <? (rg_loc r + K) * P).

(** MaybePut, huge_region.h:595-613: None inside when no region has the page. *)
Fixpoint rs_put_loop (P K : Z) (os : Z -> Z -> bool) (s : region_set) (before after : list region) (p n : Z)
  : option (option (region_set * list (Z * Z))) :=
  match after with
  | [] => Some None
  | r :: after =>
    if rg_contains P K r p then
      let? (r', calls) := rg_put P K os r p n (negb (rs_more_often s)) in
      let diff := rg_free_backed r' - rg_free_backed r in
      if 0 <=? diff then
        Some (Some (RegionSet (fix_list before r' after) (rs_n s) (rs_more_often s) (rs_free_backed s + diff) (rs_low s), calls))
      else None
    else rs_put_loop P K os s (r :: before) after p n
  end.
Definition rs_put (P K : Z) (os : Z -> Z -> bool) (s : region_set) (p n : Z)
  : option (option (region_set * list (Z * Z))) :=
  rs_put_loop P K os s [] (rs_list s) p n.

(** Contribute, huge_region.h:616-621. *)
Definition rs_contribute (s : region_set) (r : region) : region_set :=
  RegionSet (add_to_list (rs_list s) r) (rs_n s + 1) (rs_more_often s) (rs_free_backed s + rg_free_backed r) (rs_low s).

(** ReleasePages, huge_region.h:623-664: the loop over the regions in the order they are visited. *)
Fixpoint rs_release_loop (P K : Z) (os : Z -> Z -> bool) (l : list region) (adaptive : bool) (to_release released : Z)
  : option (list region * Z * list (Z * Z)) :=
  match l with
  | [] => Some ([], released, [])
  | r :: l' =>
    if to_release <=? released then Some (l, released, [])
    else
      let? (r', hl, calls) := rg_release P K os r (to_release - released) adaptive in
      let? (l', released, calls') := rs_release_loop P K os l' adaptive to_release (released + hl * P) in
      Some (r' :: l', released, calls ++ calls')
  end.
(** The fraction kFractionToReleaseFromRegion = 0.1 of the pages: truncation of the double product.
    For counts below 2^50 that is the quotient by ten, because the product is off by less than a
    part in 2^52 and the exact tenth of an integer is an integer or a tenth away from the next. *)
Definition fraction_to_release (pages : Z) : Z := pages / 10.
Definition rs_release (P K : Z) (os : Z -> Z -> bool) (s : region_set) (desired : Z) (adaptive hit_limit : bool)
  : option (region_set * Z * list (Z * Z)) :=
  let to_release :=
    if hit_limit then desired
    else if adaptive then rs_low s * P
    else fraction_to_release (rs_free_backed s * P) in
  let? (l, released, calls) := rs_release_loop P K os (if adaptive then rev (rs_list s) else rs_list s) adaptive to_release 0 in
  let released_hl := (released + P - 1) / P in
  if released_hl <=? rs_free_backed s then
    let c := rs_free_backed s - released_hl in
    Some (RegionSet (if adaptive then rev l else l) (rs_n s) (rs_more_often s) c c, released, calls)
  else None.

(** stats, huge_region.h:450-456, 722-730: (system, free, unmapped) in pages. *)
Definition rg_stats (P K : Z) (r : region) : Z * Z * Z := (K * P, rg_free_pages P K r, rg_unmapped_pages P K r).
Definition stats_add (a b : Z * Z * Z) : Z * Z * Z :=
  let '(s1, f1, u1) := a in let '(s2, f2, u2) := b in (s1 + s2, f1 + f2, u1 + u2).
Definition rs_stats (P K : Z) (s : region_set) : Z * Z * Z :=
  fold_left (fun acc r => stats_add acc (rg_stats P K r)) (rs_list s) (0, 0, 0).
