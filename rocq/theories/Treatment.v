(** Model of tcmalloc/huge_page_treatment.h and of TreatHugepageTrackers (tcmalloc/huge_page_filler.h):
    the periodic pass of the background thread over the filler's hugepages.  It chooses hugepages under
    the page heap lock, looks at them and asks the kernel to collapse them without the lock, while other threads
    allocate and free in them, and takes the lock again to record what it found.
    [N] is kPagesPerHugePage, [M] the number of the kernel's pages in a hugepage.
    Simplified: times and latencies are integers instead of doubles, and the two latencies compared with the
    thresholds are compared in cycles; counters do not wrap; the name given to a sampled hugepage is not modelled. *)
From Verif Require Import Base Bitmap HintedLists PageTracker Filler.

(** HugePageTreatmentType, huge_page_options.h:25-28. *)
Definition k_sampled : Z := 1.
Definition k_collapse : Z := 2.
(** SetDontFreeTracker, ClearDontFreeTracker, huge_page_tracker.h:302-307: an 8-bit mask. *)
Definition keep_set (k : Z -> Z) (x b : Z) : Z -> Z := upd k x (Z.lor (k x) b).
Definition keep_clear (k : Z -> Z) (x b : Z) : Z -> Z := upd k x (Z.land (k x) (255 - b)).

(** kTotalTrackersToScan, kMaxSwappedPagesForCollapse and kMaxUnbackedPagesForCollapse, huge_page_treatment.h:281, 562-564. *)
Definition k_scan : Z := 64.
Definition k_max_swapped : Z := 128.
Definition k_max_unbacked : Z := 64.
(** kMaxBackoffDelay, huge_page_filler.h:857. *)
Definition k_max_backoff : Z := 128.

(** How the pass is configured: subrelease_unbacked_mode_, enable_unfiltered_collapse, release_stale_pages;
    kRecordInterval, kMaxCollapseLatencyThreshold and kMinCollapseLatencyThreshold in cycles, huge_page_treatment.h:69-73. *)
Record tconf := TConf {
  tc_sub : bool;
  tc_unfiltered : bool;
  tc_stale : bool;
  tc_interval : Z;
  tc_slow : Z;
  tc_fast : Z }.

(** What a tracker remembers of earlier passes: HugePageResidencyState and TagState, huge_page_tracker.h:232-259, 310-315.
    The bitmaps in it are not read by the filler and are left out. *)
Record tinfo := TInfo {
  ti_backed : bool;      (* maybe_hugepage_backed *)
  ti_valid : bool;       (* entry_valid *)
  ti_time : Z;           (* record_time *)
  ti_sampled : bool;     (* sampled_for_tagging *)
  ti_tagged : Z }.       (* TagState::record_time *)

(** HugePageTreatmentStats, huge_page_treatment.h:85-104.  The errors by their index. *)
Record tstats := TStats {
  st_eligible : Z;
  st_attempted : Z;
  st_succeeded : Z;
  st_errors : Z -> Z;
  st_subreleased : Z;        (* treated_pages_subreleased *)
  st_unbacked : Z;           (* treated_pages_unbacked_subreleased *)
  st_total_unbacked : Z;     (* total_treated_pages_unbacked_subreleased *)
  st_stale : Z;              (* treated_pages_stale_subreleased *)
  st_time : Z;               (* collapse_time_total_cycles *)
  st_max : Z;                (* collapse_time_max_cycles *)
  st_skipped : Z }.          (* collapse_intervals_skipped *)
Definition stats_zero : tstats := TStats 0 0 0 (fun _ => 0) 0 0 0 0 0 0 0.

(** UpdateCollapseErrorStats, huge_page_treatment.h:124-145: the index of an errno (ENOMEM, EBUSY, EINVAL, EAGAIN, EINTR). *)
Definition error_index (errno : Z) : Z :=
  if errno =? 12 then 0 else if errno =? 16 then 1 else if errno =? 22 then 2
  else if errno =? 11 then 3 else if errno =? 4 then 4 else 5.

(** ** Choosing the hugepages *)

(** SampledTrackerTreatment::SelectEligibleTrackers, huge_page_treatment.h:216-243, over the visited trackers [l]. *)
Fixpoint select_sampled (c : tconf) (now : Z) (k : Z -> Z) (info : Z -> tinfo) (sel l : list Z) : (Z -> Z) * (Z -> tinfo) * list Z :=
  match l with
  | [] => (k, info, sel)
  | x :: l =>
    let i := info x in
    if k_scan <=? Z.of_nat (length sel) then select_sampled c now k info sel l
    else if negb (ti_sampled i) then select_sampled c now k info sel l
    else if tc_interval c <? Z.max (now - ti_tagged i) 0 then
      select_sampled c now (keep_set k x k_sampled)
        (upd info x (TInfo (ti_backed i) (ti_valid i) (ti_time i) true now)) (sel ++ [x]) l
    else select_sampled c now k info sel l
  end.

(** CompareForHugePageTreatment, huge_page_treatment.h:340-349. *)
Definition compare_for_treatment (a b : ptracker) : bool :=
  if pt_objects b <? pt_objects a then true
  else if pt_objects a <? pt_objects b then false
  else if negb (pt_dense a) then false
  else negb (pt_dense b).

(** PushCandidate, huge_page_treatment.h:353-382: [sel] are the trackers so far.  Of std::make_heap, std::pop_heap and
    std::push_heap it is used that the first tracker is one that compares before none, and that popping removes that one;
    which one if there are several is left open. *)
Inductive push_tracker (tr : Z -> ptracker) : (Z -> Z) -> list Z -> Z -> (Z -> Z) -> list Z -> Prop :=
| pu_room k sel x : Z.of_nat (length sel) < k_scan -> push_tracker tr k sel x (keep_set k x k_collapse) (sel ++ [x])
| pu_worse k s1 w s2 x : k_scan <= Z.of_nat (length (s1 ++ w :: s2)) ->
    (forall y, In y (s1 ++ w :: s2) -> compare_for_treatment (tr w) (tr y) = false) ->
    compare_for_treatment (tr w) (tr x) = true -> push_tracker tr k (s1 ++ w :: s2) x k (s1 ++ w :: s2)
| pu_swap k s1 w s2 x : k_scan <= Z.of_nat (length (s1 ++ w :: s2)) ->
    (forall y, In y (s1 ++ w :: s2) -> compare_for_treatment (tr w) (tr y) = false) ->
    compare_for_treatment (tr w) (tr x) = false ->
    push_tracker tr k (s1 ++ w :: s2) x (keep_clear (keep_set k x k_collapse) w k_collapse) (s1 ++ x :: s2).

(** HugePageUnbackedTrackerTreatment::SelectEligibleTrackers, huge_page_treatment.h:384-394. *)
Definition tr_eligible (c : tconf) (now : Z) (i : tinfo) : bool :=
  if ti_backed i then false
  else if negb (ti_valid i) then true
  else tc_interval c <? Z.max (now - ti_time i) 0.
Inductive select_trackers (c : tconf) (now : Z) (tr : Z -> ptracker) (info : Z -> tinfo) : (Z -> Z) -> list Z -> list Z -> (Z -> Z) -> list Z -> Prop :=
| se_nil k sel : select_trackers c now tr info k sel [] k sel
| se_skip k sel x l k' sel' : tr_eligible c now (info x) = false ->
    select_trackers c now tr info k sel l k' sel' -> select_trackers c now tr info k sel (x :: l) k' sel'
| se_push k sel x l k1 sel1 k' sel' : tr_eligible c now (info x) = true -> push_tracker tr k sel x k1 sel1 ->
    select_trackers c now tr info k1 sel1 l k' sel' -> select_trackers c now tr info k sel (x :: l) k' sel'.

(** The lists that are visited, huge_page_filler.h:1818-1868: by the sampled treatment, and by the other.  Nothing that one
    of the two treatments reads is changed by the other, so the visits of the two are not interleaved here. *)
Definition visited_sampled (N : Z) (f : filler) : option (list Z) :=
  let? a := iter_from N f (LPart false) 0 in
  let? b := iter_from N f (LPart true) 0 in
  let? d := iter_from N f (LReg true) 0 in
  let? e := iter_from N f (LReg false) 0 in
  let? g := iter_from N f (LRel false) 0 in
  let? h := iter_from N f (LRel true) 0 in
  Some (a ++ b ++ d ++ e ++ g ++ h).
Definition visited_unbacked (N : Z) (sub : bool) (f : filler) : option (list Z) :=
  let? a := iter_from N f (LPart false) 0 in
  let? b := iter_from N f (LPart true) 0 in
  let? c := iter_from N f LDon 0 in
  let? d := iter_from N f (LReg true) 0 in
  let? e := iter_from N f (LReg false) 0 in
  if sub then
    let? g := iter_from N f (LRel false) 0 in
    let? h := iter_from N f (LRel true) 0 in
    Some (a ++ b ++ c ++ d ++ e ++ g ++ h)
  else Some (a ++ b ++ c ++ d ++ e).

(** ** Without the lock *)

(** What Treat reads about a hugepage: IsHugepageBacked (nothing if it cannot be read), and the kernel's pages that are
    unbacked, swapped and stale. *)
Record obs := Obs { o_huge : option bool; o_unbacked : words; o_swapped : words; o_stale : words }.
(** What Treat did with it.  [TTried ok errno elapsed]: it was collapsed, or that failed. *)
Inductive outcome := TLeft | TSkipped | TBackoff | TTried (ok : bool) (errno elapsed : Z).
Record entry := Entry { e_x : Z; e_obs : obs; e_out : outcome; e_time : Z }.

(** Treat, huge_page_treatment.h:441-470: what is to be done; None: collapse it. *)
Definition decide (c : tconf) (M : Z) (enabled : bool) (stats : tstats) (o : obs) : option outcome :=
  match o_huge o with
  | Some false =>
    let backoff := tc_slow c <? st_max stats in
    if enabled && negb backoff then
      if tc_unfiltered c || ((count_bits M (o_swapped o) 0 M <? k_max_swapped) && (count_bits M (o_unbacked o) 0 M <? k_max_unbacked))
      then None else Some TSkipped
    else if enabled then Some TBackoff else Some TLeft
  | _ => Some TLeft
  end.

(** TryUserspaceCollapse, huge_page_treatment.h:544-560: the statistics. *)
Definition count_collapse (s : tstats) (ok : bool) (errno elapsed : Z) : tstats :=
  TStats (st_eligible s) (st_attempted s + 1) (st_succeeded s + if ok then 1 else 0)
    (if ok then st_errors s else upd (st_errors s) (error_index errno) (st_errors s (error_index errno) + 1))
    (st_subreleased s) (st_unbacked s) (st_total_unbacked s) (st_stale s)
    (st_time s + Z.max elapsed 0) (Z.max (Z.max elapsed 0) (st_max s)) (st_skipped s).

(** The residency state recorded for a tracker, huge_page_treatment.h:427-440, 462. *)
Definition e_backed (e : entry) : bool :=
  match e_out e with
  | TTried ok _ _ => ok
  | _ => match o_huge (e_obs e) with Some b => b | None => true end
  end.
(** Only pages that are not hugepage backed are looked at, huge_page_treatment.h:441-451. *)
Definition e_looked (e : entry) : bool := match o_huge (e_obs e) with Some false => true | _ => false end.
Definition e_bits (N M : Z) (e : entry) (w : words) (all : bool) : words := if e_looked e then scale M N w M all else clear_all.

(** ** Recording *)

Definition add_sub (s : tstats) (n : Z) : tstats :=
  TStats (st_eligible s) (st_attempted s) (st_succeeded s) (st_errors s) (st_subreleased s + n) (st_unbacked s) (st_total_unbacked s) (st_stale s) (st_time s) (st_max s) (st_skipped s).
Definition add_stale (s : tstats) (n : Z) : tstats :=
  TStats (st_eligible s) (st_attempted s) (st_succeeded s) (st_errors s) (st_subreleased s) (st_unbacked s) (st_total_unbacked s) (st_stale s + n) (st_time s) (st_max s) (st_skipped s).
Definition add_unbacked (s : tstats) (n : Z) : tstats :=
  TStats (st_eligible s) (st_attempted s) (st_succeeded s) (st_errors s) (st_subreleased s) (st_unbacked s + n) (st_total_unbacked s) (st_stale s) (st_time s) (st_max s) (st_skipped s).

(** SampledTrackerTreatment::Restore, huge_page_treatment.h:271-278. *)
Definition restore_sampled (f : filler) (sel : list Z) : filler :=
  set_keep f (fold_left (fun k x => keep_clear k x k_sampled) sel (fl_keep f)).

(** HugePageUnbackedTrackerTreatment::Restore, huge_page_treatment.h:476-522; [os x i n]: whether the call that unbacks pages
    of [x] succeeds. *)
Definition restore_one (N M : Z) (c : tconf) (os : Z -> Z -> Z -> bool) (f : filler) (info : Z -> tinfo) (s : tstats) (e : entry) : option (filler * (Z -> tinfo) * tstats) :=
  let x := e_x e in
  let f := set_keep f (keep_clear (fl_keep f) x k_collapse) in
  if pt_fully_freed N (fl_tr f x) then Some (f, info, s)
  else
    let f := set_collapsing f (upd (fl_collapsing f) x false) in
    let info := upd info x (TInfo (e_backed e) true (e_time e) (ti_sampled (info x)) (ti_tagged (info x))) in
    if e_backed e then Some (if tc_sub c then on_collapse_success N (tc_sub c) f x else f, info, s)
    else
      let? (f, s) :=
        if negb (is_zero N (e_bits N M e (o_swapped (e_obs e)) false)) then
          let? (f, r) := handle_release_free N (tc_sub c) f x (os x) in
          Some (f, if 0 <? r then add_sub s r else s)
        else if tc_stale c && negb (is_zero N (e_bits N M e (o_stale (e_obs e)) false)) then
          let? (f, r) := handle_release_free N (tc_sub c) f x (os x) in
          Some (f, if 0 <? r then add_stale s r else s)
        else Some (f, s) in
      if tc_sub c then
        let '(f, r) := handle_unbacked N (tc_sub c) f x (e_bits N M e (o_unbacked (e_obs e)) true) in
        Some (f, info, if 0 <? r then add_unbacked s r else s)
      else Some (f, info, s).
Fixpoint restore_all (N M : Z) (c : tconf) (os : Z -> Z -> Z -> bool) (f : filler) (info : Z -> tinfo) (s : tstats) (l : list entry) : option (filler * (Z -> tinfo) * tstats) :=
  match l with
  | [] => Some (f, info, s)
  | e :: l =>
    let? (f, info, s) := restore_one N M c os f info s e in
    restore_all N M c os f info s l
  end.

(** operator+= and UpdateHugePageTreatmentStats, huge_page_treatment.h:147-159, 526-541. *)
Definition stats_update (a b : tstats) : tstats :=
  TStats (st_eligible a + st_eligible b) (st_attempted a + st_attempted b) (st_succeeded a + st_succeeded b)
    (fun i => st_errors a i + st_errors b i) (st_subreleased b) (st_unbacked b) (st_total_unbacked a + st_unbacked b) (st_stale b)
    (st_time a + st_time b) (Z.max (st_max a) (st_max b)) (st_skipped a).

(** ShouldBackoffFromCollapse, huge_page_filler.h:1772-1781: whether, and the new current_backoff_delay_. *)
Definition should_backoff (max cur : Z) : bool * Z := if cur + 1 <? max then (true, cur + 1) else (false, 0).
(** UpdateMaxBackoffDelay, huge_page_filler.h:1784-1794. *)
Definition update_backoff (c : tconf) (max latency : Z) : Z :=
  if tc_slow c <? latency then Z.min (Z.shiftl max 1) k_max_backoff
  else if latency <? tc_fast c then Z.max (Z.shiftr max 1) 1
  else max.

(** The loop of HugePageAwareAllocator::TreatHugepageTrackers, huge_page_aware_allocator.h:1095-1098: the trackers it fetches,
    in order, which it hands to ReleaseHugepage. *)
Fixpoint fetch_all (fuel : nat) (f : filler) : list Z * filler :=
  match fuel with
  | O => ([], f)
  | S fuel =>
    match fl_fetch f with
    | (None, f) => ([], f)
    | (Some x, f) => let '(l, f) := fetch_all fuel f in (x :: l, f)
    end
  end.

(** ** The pass and the other threads *)

Record pass := Pass {
  g_sampled : list Z;             (* selected_trackers_ of the sampled treatment *)
  g_todo : list Z;                (* selected_trackers_ of the other, not yet looked at *)
  g_busy : option (Z * obs);      (* in PageTracker::Collapse, without the lock *)
  g_done : list entry;            (* residency_states_ *)
  g_stats : tstats;               (* treatment_stats_ of the treatment *)
  g_enabled : bool }.             (* enable_collapse_ *)
Inductive phase := PIdle | PPass (g : pass) | PCrash.

(** A pass that is over, for the specification: whether collapsing was asked for, and whether it was skipped;
    what it did, and the pages it released for each reason. *)
Record past := Past { a_asked : bool; a_skipped : bool; a_done : list entry; a_eligible : Z; a_sub : Z; a_unb : Z; a_stale : Z }.

Record tsys := TSys {
  y_f : filler;
  y_own : list Z;                        (* as in the history of the filler *)
  y_lv : Z -> list (Z * Z * Z);
  y_given : list Z;                      (* the hugepages contributed and not returned, as the filler's caller sees it *)
  y_info : Z -> tinfo;
  y_stats : tstats;
  y_max : Z;                             (* max_backoff_delay_ *)
  y_cur : Z;                             (* current_backoff_delay_ *)
  y_phase : phase;
  y_past : list past }.                  (* the passes so far, the latest first *)

Definition sys_init (t0 : Z -> ptracker) (i0 : Z -> tinfo) : tsys :=
  TSys (filler_init t0) [] (fun _ => []) [] i0 stats_zero 1 0 PIdle [].

Definition with_fill (s : tsys) (f : filler) (own : list Z) (lv : Z -> list (Z * Z * Z)) (given : list Z) : tsys :=
  TSys f own lv given (y_info s) (y_stats s) (y_max s) (y_cur s) (y_phase s) (y_past s).
Definition with_phase (s : tsys) (f : filler) (p : phase) : tsys :=
  TSys f (y_own s) (y_lv s) (y_given s) (y_info s) (y_stats s) (y_max s) (y_cur s) p (y_past s).
Definition with_info (s : tsys) (i : Z -> tinfo) : tsys :=
  TSys (y_f s) (y_own s) (y_lv s) (y_given s) i (y_stats s) (y_max s) (y_cur s) (y_phase s) (y_past s).

(** What the other threads do, each under the lock: TryGet, Put, Contribute and ReleasePages. *)
Inductive other_step (N : Z) (sub : bool) : tsys -> tsys -> Prop :=
| ot_get s n d o f' x i b : 0 < n < N -> (d = true -> n = 1) ->
    try_get N sub (y_f s) n d o = Some (f', Some (x, i, b)) ->
    other_step N sub s (with_fill s f' (y_own s) (upd (y_lv s) x (((i, n), o) :: y_lv s x)) (y_given s))
| ot_put s x l1 i n o l2 os f' r : In x (y_own s) -> y_lv s x = l1 ++ ((i, n), o) :: l2 ->
    fl_put N sub (y_f s) x i n o os = Some (f', r) ->
    other_step N sub s (with_fill s f' (match l1 ++ l2 with [] => rem1 x (y_own s) | _ => y_own s end) (upd (y_lv s) x (l1 ++ l2))
      (match r with Some y => rem1 y (y_given s) | None => y_given s end))
| ot_contribute s x donated dense n o t i u sampled now : ~ In x (y_given s) ->
    0 < n -> pt_get N (pt_new N donated) n o = Some (t, i, u) ->
    (donated = true -> dense = false /\ n < N) -> (dense = true -> n = 1) ->
    other_step N sub s
      (with_info (with_fill s (let f := fl_contribute N sub (y_f s) x t donated dense in
                                set_collapsing (set_keep f (upd (fl_keep f) x 0)) (upd (fl_collapsing f) x false))
                            (x :: y_own s) (upd (y_lv s) x [((i, n), o)]) (x :: y_given s))
         (upd (y_info s) x (TInfo false false 0 sampled now)))
| ot_release s ans desired from_partial skip f' r : release_pages N sub ans (y_f s) desired from_partial skip f' r ->
    other_step N sub s (with_fill s f' (y_own s) (y_lv s) (y_given s)).

(** TreatHugepageTrackers, huge_page_filler.h:1797-1893.  Up to the unlock, 1802-1870; [asked]: enable_collapse; [k2], [info], [sampled] and
    [sel]: what selecting yields.  collapse_eligible is set at the start of Treat, huge_page_treatment.h:416-418. *)
Definition pass_start (s : tsys) (asked : bool) (k2 : Z -> Z) (info : Z -> tinfo) (sampled sel : list Z) : tsys :=
  let '(back, cur) := if asked then should_backoff (y_max s) (y_cur s) else (false, y_cur s) in
  let enabled := asked && negb back in
  let st := y_stats s in
  let st := if back then TStats (st_eligible st) (st_attempted st) (st_succeeded st) (st_errors st) (st_subreleased st) (st_unbacked st)
                              (st_total_unbacked st) (st_stale st) (st_time st) (st_max st) (st_skipped st + 1) else st in
  let mine := TStats (if enabled then Z.of_nat (length sel) else 0) 0 0 (fun _ => 0) 0 0 0 0 0 0 0 in
  TSys (set_keep (y_f s) k2) (y_own s) (y_lv s) (y_given s) info st (y_max s) cur
    (PPass (Pass sampled sel None [] mine enabled)) (Past asked back [] 0 0 0 0 :: y_past s).

(** From taking the lock again, huge_page_filler.h:1874-1893, with the loop of the caller. *)
Definition pass_finish (N M : Z) (c : tconf) (s : tsys) (g : pass) (os : Z -> Z -> Z -> bool) : tsys :=
  match restore_all N M c os (restore_sampled (y_f s) (g_sampled g)) (y_info s) (g_stats g) (g_done g) with
  | None => with_phase s (y_f s) PCrash
  | Some (f, info, mine) =>
    let '(returned, f) := fetch_all (S (length (fl_freed f))) f in
    TSys f (y_own s) (y_lv s) (fold_left (fun l x => rem1 x l) returned (y_given s)) info (stats_update (y_stats s) mine)
      (if 0 <? st_attempted (g_stats g) then update_backoff c (y_max s) (st_max (g_stats g)) else y_max s) (y_cur s) PIdle
      (match y_past s with
       | a :: l => Past (a_asked a) (a_skipped a) (g_done g) (st_eligible (g_stats g)) (st_subreleased mine) (st_unbacked mine) (st_stale mine) :: l
       | [] => []
       end)
  end.

(** The steps of a pass.  [ps_look]: an iteration of Treat that does not collapse.  [ps_refused], [ps_begin] and [ps_end]: one that
    does, huge_page_tracker.h:546-568; a failed TC_ASSERT leads to PCrash. *)
Inductive pass_step (N M : Z) (c : tconf) : tsys -> tsys -> Prop :=
| ps_start s (asked : bool) now ls lu k1 info sampled k2 sel : y_phase s = PIdle ->
    visited_sampled N (y_f s) = Some ls -> visited_unbacked N (tc_sub c) (y_f s) = Some lu ->
    select_sampled c now (fl_keep (y_f s)) (y_info s) [] ls = (k1, info, sampled) ->
    select_trackers c now (fl_tr (y_f s)) (y_info s) k1 [] lu k2 sel ->
    pass_step N M c s (pass_start s asked k2 info sampled sel)
| ps_look s g x l o out t : y_phase s = PPass g -> g_todo g = x :: l -> g_busy g = None ->
    decide c M (g_enabled g) (g_stats g) o = Some out ->
    pass_step N M c s (with_phase s (y_f s) (PPass (Pass (g_sampled g) l None (g_done g ++ [Entry x o out t]) (g_stats g) (g_enabled g))))
| ps_refused s g x l o t elapsed : y_phase s = PPass g -> g_todo g = x :: l -> g_busy g = None ->
    decide c M (g_enabled g) (g_stats g) o = None -> pt_released (fl_tr (y_f s) x) = true ->
    pass_step N M c s (with_phase s (y_f s) (PPass (Pass (g_sampled g) l None (g_done g ++ [Entry x o (TTried false 0 elapsed) t])
      (count_collapse (g_stats g) false 0 elapsed) (g_enabled g))))
| ps_begin s g x l o : y_phase s = PPass g -> g_todo g = x :: l -> g_busy g = None ->
    decide c M (g_enabled g) (g_stats g) o = None -> pt_released (fl_tr (y_f s) x) = false ->
    pass_step N M c s (if fl_collapsing (y_f s) x then with_phase s (y_f s) PCrash
      else with_phase s (set_collapsing (y_f s) (upd (fl_collapsing (y_f s)) x true))
        (PPass (Pass (g_sampled g) l (Some (x, o)) (g_done g) (g_stats g) (g_enabled g))))
| ps_end s g x o t (ok : bool) errno elapsed : y_phase s = PPass g -> g_busy g = Some (x, o) ->
    pass_step N M c s (if pt_released (fl_tr (y_f s) x) then with_phase s (y_f s) PCrash
      else with_phase s (set_collapsing (y_f s) (upd (fl_collapsing (y_f s)) x false))
        (PPass (Pass (g_sampled g) (g_todo g) None (g_done g ++ [Entry x o (TTried ok errno elapsed) t])
          (count_collapse (g_stats g) ok errno elapsed) (g_enabled g))))
| ps_restore s g os : y_phase s = PPass g -> g_todo g = [] -> g_busy g = None ->
    pass_step N M c s (pass_finish N M c s g os).

(** One background thread makes the passes; the other threads do as they please. *)
Inductive treat_reach (N M : Z) (c : tconf) : tsys -> Prop :=
| tr_init t0 i0 : treat_reach N M c (sys_init t0 i0)
| tr_other s s' : treat_reach N M c s -> y_phase s <> PCrash -> other_step N (tc_sub c) s s' -> treat_reach N M c s'
| tr_pass s s' : treat_reach N M c s -> pass_step N M c s s' -> treat_reach N M c s'.
