(** Model of tcmalloc/huge_page_subrelease.h: the record of recent demand, what it says
    must stay mapped, and the statistics of the decisions not to release.  Lengths are
    numbers of pages, durations are in nanoseconds, and epochs are the values of the
    clock divided by the epoch length (TimeSeries.v). *)
From Verif Require Import Base TimeSeries.

(** pages.h:57-59 and huge_page_subrelease.h:435: Length::max(), with the default 8 KiB pages. *)
Definition len_max : Z := 2 ^ 51 - 1.

(** SubreleaseStats, huge_page_subrelease.h:254-259. *)
Record sstats := SStats { ss_num : Z; ss_free : Z; ss_unmapped : Z; ss_sub : Z }.

(** SubreleaseStatsEntry, huge_page_subrelease.h:432-438. *)
Record sentry := SEntry { se_min : sstats; se_max : sstats; se_min_free : Z; se_min_backed : Z; se_sub : Z }.
Definition sstats0 : sstats := SStats 0 0 0 0.
(** Nil(), huge_page_subrelease.h:440. *)
Definition sentry_nil : sentry := SEntry sstats0 sstats0 len_max len_max 0.
(** empty(), huge_page_subrelease.h:465. *)
Definition se_empty (e : sentry) : bool := se_min_free e =? len_max.

(** Report, huge_page_subrelease.h:442-463. *)
Definition se_report (e : sentry) (v : sstats) : sentry :=
  let mn := if se_empty e then v else se_min e in
  let mx := if se_empty e then v else se_max e in
  let mn := if ss_num v <? ss_num mn then v else mn in
  let mx := if ss_num mx <? ss_num v then v else mx in
  SEntry mn mx (Z.min (se_min_free e) (wrap64 (ss_free v + ss_unmapped v))) (Z.min (se_min_backed e) (ss_free v)) (wrap64 (se_sub e + ss_sub v)).

(** Decisions, the update and the entry of the correctness tracker,
    huge_page_subrelease.h:47-66, 145-174. *)
Record decided := Decided { d_pages : Z; d_count : Z }.
Definition d_zero : decided := Decided 0 0.
Definition d_one (pages : Z) : decided := Decided pages 1.
Definition d_add (a b : decided) : decided := Decided (wrap64 (d_pages a + d_pages b)) (wrap64 (d_count a + d_count b)).
Record cupdate := CUpdate { cu_dec : decided; cu_num : Z; cu_peak : Z }.
Record centry := CEntry { ce_dec : decided; ce_num : Z; ce_peak : Z }.
Definition centry_nil : centry := CEntry d_zero 0 0.
Definition ce_report (e : centry) (u : cupdate) : centry :=
  CEntry (d_add (ce_dec e) (cu_dec u)) (Z.max (ce_num e) (cu_num u)) (Z.max (ce_peak e) (cu_peak u)).

(** The constants of the two trackers, huge_page_subrelease.h:68-73, 266-276, 527-538: number of slots, window,
    summary and demand-cap intervals; the epoch length is the window divided by the slots. *)
Record scfg := SCfg { sc_slots : Z; sc_window : Z; sc_summary : Z; sc_cap : Z }.
Definition sc_epoch (c : scfg) : Z := sc_window c / sc_slots c.
(** huge_page_subrelease.h:272. *)
Definition sc_summary_epochs (c : scfg) : Z := sc_summary c / sc_epoch c.

(** IterBackwards over an interval, internal/timeseries_tracker.h:204-215: nothing for the zero interval, otherwise
    the epochs are rounded up.  The division of durations is in floating point there and exact here. *)
Definition back {P} (c : scfg) (t : tseries P) (interval : Z) : list (Z * Z * P) :=
  if interval =? 0 then [] else ts_iter_back (sc_slots c) t (Some ((interval + sc_epoch c - 1) / sc_epoch c)).

(** The entries that are not empty, in the order visited. *)
Definition seen (c : scfg) (t : tseries sentry) (interval : Z) : list sentry :=
  filter (fun e => negb (se_empty e)) (map snd (back c t interval)).

(** CalculateDemandPeak, huge_page_subrelease.h:470-485. *)
Definition demand_peak (c : scfg) (t : tseries sentry) (interval : Z) : Z :=
  fold_left (fun m e => if m <? ss_num (se_max e) then ss_num (se_max e) else m) (seen c t interval) 0.

(** GetRecentPeak, huge_page_subrelease.h:317-323. *)
Definition recent_peak (c : scfg) (t : tseries sentry) (interval : Z) : Z := demand_peak c t (Z.min interval (sc_window c)).

(** CalculateCombinedDemandTrend, huge_page_subrelease.h:488-525. *)
Definition demand_trend (c : scfg) (t : tseries sentry) (short long : Z) : Z :=
  let short := if negb (short =? 0) && negb (long =? 0) then Z.min short long else short in
  let short := Z.max (Z.min short (sc_window c)) 0 in
  let long := Z.max (Z.min long (sc_window c)) 0 in
  let fluct := fold_left (fun m e => let d := ss_num (se_max e) - ss_num (se_min e) in if m <? d then d else m) (seen c t short) 0 in
  let trend := fold_left (fun m e => if m <? ss_num (se_min e) then ss_num (se_min e) else m) (seen c t long) 0 in
  wrap64 (fluct + trend).

(** GetRecentDemand, huge_page_subrelease.h:333-354. *)
Definition recent_demand (c : scfg) (t : tseries sentry) (short long : Z) : Z :=
  Z.min (demand_peak c t (sc_cap c)) (demand_trend c t short long).

(** min_free_pages, huge_page_subrelease.h:387-407: (all free, free and backed); RealizedFragmentation,
    huge_page_subrelease.h:411-424, is the second over the summary interval. *)
Definition min_free_pages (c : scfg) (t : tseries sentry) (w : Z) : Z * Z :=
  let es := seen c t (Z.max w 0) in
  let f := fold_left (fun m e => Z.min m (se_min_free e)) es len_max in
  let b := fold_left (fun m e => Z.min m (se_min_backed e)) es len_max in
  (if f =? len_max then 0 else f, if b =? len_max then 0 else b).
Definition realized_fragmentation (c : scfg) (t : tseries sentry) : Z :=
  let b := fold_left (fun m e => Z.min m (se_min_backed e)) (seen c t (sc_summary c)) len_max in
  if b =? len_max then 0 else b.

(** SkippedSubreleaseCorrectnessTracker's fields, huge_page_subrelease.h:176-194. *)
Record cstate := CState { cs_t : tseries centry; cs_last : Z; cs_total : decided; cs_correct : decided; cs_pending : decided }.

(** ReportSkippedSubreleasePages, huge_page_subrelease.h:80-88; [e]: the epoch its clock reads. *)
Definition cs_skip (c : scfg) (s : cstate) (e pages peak : Z) : cstate :=
  CState (snd (ts_report (sc_slots c) centry_nil ce_report (cs_t s) e (CUpdate (d_one pages) peak 0)))
    (cs_last s) (d_add (cs_total s) (d_one pages)) (cs_correct s) (d_add (cs_pending s) (d_one pages)).

(** The callback of ReportUpdatedPeak, huge_page_subrelease.h:107-129, over the entries visited; the accumulators are
    the largest peak already confirmed, the decisions confirmed and the ones pending. *)
Fixpoint confirm (cur : Z) (l : list (Z * Z * centry)) (a : Z * decided * decided) : Z * decided * decided :=
  match l with
  | [] => a
  | (offset, _, e) :: l =>
    let '(largest, ok, pend) := a in
    if offset =? 0 then confirm cur l a
    else
      let ok' := if (0 <? d_count (ce_dec e)) && (largest <? ce_num e) && (ce_num e <=? cur) then d_add ok (ce_dec e) else ok in
      let pend' := if (0 <? d_count (ce_dec e)) && (largest <? ce_num e) && negb (ce_num e <=? cur) then d_add pend (ce_dec e) else pend in
      confirm cur l (Z.max largest (ce_peak e), ok', pend')
  end.

(** ReportUpdatedPeak, huge_page_subrelease.h:90-134. *)
Definition cs_peak (c : scfg) (s : cstate) (e peak : Z) : cstate :=
  let (moved, t) := ts_report (sc_slots c) centry_nil ce_report (cs_t s) e (CUpdate d_zero 0 peak) in
  let last := if moved then 0 else cs_last s in
  let '(_, ok, pend) := confirm peak (back c t (sc_summary c + sc_epoch c)) (last, cs_correct s, d_zero) in
  CState t (Z.max last peak) (cs_total s) ok pend.

(** SubreleaseStatsTracker, huge_page_subrelease.h:540-541. *)
Record sstate := SState { st_t : tseries sentry; st_c : cstate }.
(** huge_page_subrelease.h:68-73, 266-276; [e]: the epoch at construction. *)
Definition st_init (e : Z) : sstate := SState (ts_init sentry_nil e) (CState (ts_init centry_nil e) 0 d_zero d_zero d_zero).

(** Report, huge_page_subrelease.h:289-304; [e] and [e2]: the epochs the two clocks read.  The comparison of
    epoch_taken, a size_t, with summary_epochs_ is of signed values here. *)
Definition st_report (c : scfg) (s : sstate) (e e2 : Z) (v : sstats) : sstate :=
  let (moved, t) := ts_report (sc_slots c) sentry_nil se_report (st_t s) e v in
  if moved && (0 <? d_count (cs_pending (st_c s))) then
    let (taken, r) := ts_recent (sc_slots c) t in
    let peak := if taken <=? sc_summary_epochs c then Z.max (ss_num v) (ss_num (se_max r)) else ss_num v in
    SState t (cs_peak c (st_c s) e2 peak)
  else SState t (st_c s).

(** ReportSkippedSubreleasePages, huge_page_subrelease.h:358-364. *)
Definition st_skip (c : scfg) (s : sstate) (e pages peak : Z) : sstate :=
  if pages =? 0 then s else SState (st_t s) (cs_skip c (st_c s) e pages peak).

(** SkipSubreleaseIntervals, huge_page_subrelease.h:197-217, and the requirement chosen in
    GetDesiredSubreleasePages, huge_page_filler.h:1528-1535; [None]: skipping is not enabled. *)
Definition required_pages (c : scfg) (t : tseries sentry) (peak short long : Z) : option Z :=
  if (peak =? 0) && (short =? 0) && (long =? 0) then None
  else Some (if negb (peak =? 0) then recent_peak c t peak else recent_demand c t short long).

(** What GetDesiredSubreleasePages reports as skipped, huge_page_filler.h:1537-1566: the pages and the demand level, or
    nothing; [used], [free]: the filler's pages. *)
Definition skipped_report (used free desired total required : Z) : option (Z * Z) :=
  let current := used + free in
  if required =? 0 then None
  else
    let new_desired := if current <=? required then total else total + (current - required) in
    if desired <=? new_desired then None
    else
      let releasable := Z.min free (new_desired - total) in
      Some (Z.min (free - releasable) (desired - new_desired), Z.min current required).
