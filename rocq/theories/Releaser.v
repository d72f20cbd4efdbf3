(** Model of giving memory back on request and in the background: ConstantRatePageAllocatorReleaser of tcmalloc/static_vars.h,
    ReleaseMemoryToSystem and malloc_trim of tcmalloc/tcmalloc.cc, and the loop of tcmalloc/background.cc.

    The page heaps are behind the interface of Limits.v: [rel w h n] is ReleaseAtLeastNPages of heap [h].  Both releasers are used
    under a lock of their own (release_lock, mu), so their calls come one after the other; what other threads do to the page
    heaps meanwhile is part of the world. *)
From Verif Require Import Base Limits.

(** ConstantRatePageAllocatorReleaser::Release, static_vars.h:309-348: [extra] is extra_bytes_released_.  Returned are the world, the
    new extra_bytes_released_, the returned value and the calls to the heaps.  The value assigned to extra_bytes_released_ in
    :316 is overwritten on both ways out, as in the code.  That sums do not exceed 2^64 is not checked. *)
Definition rl_release {W} (rel : op W) (cf : config) (w : W) (extra num_bytes : Z) : W * Z * Z * list call :=
  let '(extra, num_bytes) :=                                                         (* :312-319 *)
    if num_bytes <=? extra then (extra - num_bytes, 0) else (extra, num_bytes - extra) in
  let num_pages := if 0 <? num_bytes then pages_ceil cf num_bytes else 0 in          (* :321-332 *)
  let '(w, released, log) := release rel cf num_pages w in                           (* :334-336 *)
  let bytes_released := released * cf_page cf in
  if num_bytes <? bytes_released then (w, bytes_released - num_bytes, num_bytes, log)   (* :337-341 *)
  else (w, 0, bytes_released, log).                                                  (* :343-347 *)

(** MallocExtension::ReleaseMemoryToSystem, tcmalloc.cc:365-374, is rl_release; malloc_trim, tcmalloc.cc:1114-1118, asks for no bytes. *)
Definition malloc_trim {W} (rel : op W) (cf : config) (w : W) (extra : Z) : W * Z * Z * list call :=
  let '(w, extra, ret, log) := rl_release rel cf w extra 0 in
  (w, extra, if negb (ret =? 0) then 1 else 0, log).

(** ** The background loop, background.cc:36-205 *)

(** The actions that have a period of their own. *)
Inductive action := DrainCaches | ShuffleCaches | ResizeClasses | ResizeMaxCapacities | ResizeSlab | PlunderTransfer | ResizeTransfer | TreatHugepages.
Definition action_eqb (a b : action) : bool :=
  match a, b with
  | DrainCaches, DrainCaches | ShuffleCaches, ShuffleCaches | ResizeClasses, ResizeClasses | ResizeMaxCapacities, ResizeMaxCapacities
  | ResizeSlab, ResizeSlab | PlunderTransfer, PlunderTransfer | ResizeTransfer, ResizeTransfer | TreatHugepages, TreatHugepages => true
  | _, _ => false
  end.
(** The periods, in multiples of the sleep interval, background.cc:72-97. *)
Definition period (a : action) : Z :=
  match a with
  | DrainCaches => 30 | ShuffleCaches => 5 | ResizeClasses => 2 | ResizeMaxCapacities => 29
  | ResizeSlab => 29 | PlunderTransfer => 5 | ResizeTransfer => 2 | TreatHugepages => 5
  end.

(** What one iteration finds: times are nanoseconds; [be_small] is TCMALLOC_INTERNAL_SMALL_BUT_SLOW. *)
Record bg_env := BgEnv {
  be_now : Z; be_sleep : Z;
  be_percpu : bool; be_maxcap : bool; be_slab : bool; be_small : bool;
  be_rate : Z;               (* background_release_rate, bytes per second *)
  be_regions : bool          (* release_pages_from_huge_region *)
}.
(** What it does, in order. *)
Inductive event := Do (a : action) | ClearTouched | PlunderSharded | ReleaseBytes (n : Z).

(** last_drain, ..., and prev_time, background.cc:42-53. *)
Record bg_state := BgState { bg_last : action -> Z; bg_prev : Z }.
Definition bg_init (t : Z) : bg_state := BgState (fun _ => t) t.
Definition set_last (f : action -> Z) (a : action) (t : Z) : action -> Z := fun b => if action_eqb a b then t else f b.

(** "if (now - last >= period) { act; last = now; }", background.cc:119-174; [on] is the rest of the condition. *)
Definition maybe (on : bool) (a : action) (e : bg_env) (s : (action -> Z) * list event) : (action -> Z) * list event :=
  let (last, evs) := s in
  if on && (period a * be_sleep e <=? be_now e - last a) then (set_last last a (be_now e), evs ++ [Do a]) else (last, evs).

Definition ssize_max : Z := 2 ^ 63 - 1.
(** bytes_to_release, background.cc:180-189: rate times elapsed seconds, in exact arithmetic rather than in doubles. *)
Definition bytes_to_release (rate elapsed : Z) : Z := Z.max 0 (Z.min ssize_max (Z.quot (rate * elapsed) (10 ^ 9))).

(** One iteration, background.cc:62-202.  The order is that of the code. *)
Definition bg_step (st : bg_state) (e : bg_env) : bg_state * list event :=
  let s := (bg_last st, []) in
  let s := if be_percpu e then                                                       (* :111-151 *)
             let s := maybe true DrainCaches e s in
             let s := maybe true ShuffleCaches e s in
             let s := maybe true ResizeClasses e s in
             let s := maybe (be_maxcap e) ResizeMaxCapacities e s in
             let s := maybe (be_slab e) ResizeSlab e s in
             (fst s, snd s ++ [ClearTouched])
           else s in
  let s := (fst s, snd s ++ [PlunderSharded]) in                                     (* :153 *)
  let s := if be_small e then s else                                                 (* :155-168 *)
             let s := maybe true PlunderTransfer e s in
             maybe true ResizeTransfer e s in
  let s := maybe true TreatHugepages e s in                                          (* :170-174 *)
  let n := bytes_to_release (be_rate e) (be_now e - bg_prev st) in
  let evs := if (0 <? n) || be_regions e then snd s ++ [ReleaseBytes n] else snd s in   (* :195-202 *)
  (BgState (fst s) (be_now e), evs).

(** All iterations, oldest first. *)
Inductive bg_runs (t0 : Z) : list (bg_env * list event) -> bg_state -> Prop :=
| br_start : bg_runs t0 [] (bg_init t0)
| br_step H st e st' evs : bg_runs t0 H st -> bg_step st e = (st', evs) -> bg_runs t0 (H ++ [(e, evs)]) st'.
