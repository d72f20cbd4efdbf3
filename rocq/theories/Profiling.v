(** The life of sampled allocations and the profiles made of them: the heap profile, the peak heap profile, allocation profiles and
    lifetime (deallocation) profiles, with any number of threads that allocate and free sampled objects while profiles are
    started, stopped and dumped.

    A step of a thread is one access to shared data, or one critical section.  Simplified: the list of live samples
    (sampled_allocation_recorder.h, verified in Recorder.v) is a list of handles: registering and unregistering are atomic, and an
    iteration returns any list that the theorem iterate_reports of RecorderProps.v allows: each sample at most once, each that was
    live throughout, none that was never live meanwhile.  IsNewPeak reads its two variables at once, and its product with a
    floating-point fraction is exact.  The fragmentation and the bytes that a sample stands for are any functions of it.  Not
    modelled: the aggregation of samples with the same stack (stack_trace_table.cc) and the statistics of lifetimes. *)
From Verif Require Import Base Flow.

(** StackTrace, common.h: what profiles report of a sampled allocation. *)
Record sample := Smp { sm_requested : Z; sm_allocated : Z; sm_weight : Z; sm_stack : Z }.

(** [p_frag]: allocation_sampling.h:185-188, 382-389 (the same amount at both places); [p_bytes]: AllocatedBytes, span.cc:55-58,
    75-78; the growth fraction of peak_heap_tracker.cc:40-41 is [p_num] / [p_den]; [p_nthr]: the number of threads. *)
Record ppar := PPar { p_frag : sample -> Z; p_bytes : sample -> Z; p_num : Z; p_den : Z; p_nthr : Z }.
Definition ppar_ok (p : ppar) : Prop := (forall x, 0 <= p_frag p x) /\ (forall x, 0 <= p_bytes p x) /\ 0 < p_den p.

(** An allocation profile in progress (allocation_sample.h:35-51).  Not in the code: [a_before]: the samples reported before it
    was started. *)
Record asession := AS { a_id : Z; a_got : list Z; a_before : list Z }.
(** A lifetime profile in progress (deallocation_profiler.cc:481-487): the table of the allocations in flight; the reports made so
    far: a handle with true if its allocation is in the table (a pair), false if only the deallocation was seen.
    Not in the code: [d_live]: the samples that were live from the start to the end of the start of the profile; [d_dead]: those
    freed before; [d_gen]: the last handle given out before. *)
Record dsession := DS { d_id : Z; d_tab : list Z; d_out : list (Z * bool); d_live : list Z; d_dead : list Z; d_gen : Z }.

(** Where a thread is: in a malloc that is sampled (M), in the free of a sampled object (F), in a dump of the heap profile or
    in the start of a lifetime profile.  An iteration remembers what was registered, and had ever been, when it began. *)
Inductive ppc :=
| PIdle
| M1 (x : sample) | M2 (h : Z) | M3 (h : Z) | M4 (h : Z) | M5 (h : Z) | M6 (h : Z) | M7 (h : Z) | M8 (h : Z) | M9 (h : Z) | M10 (h v : Z)
| M11 (h : Z) (reg0 ever0 : list Z)
| F1 (h : Z) | F2 (h : Z) | F3 (h : Z) | F4 (h : Z)
| Dump (reg0 ever0 : list Z)
| Seed (id : Z) (reg0 ever0 : list Z).

(** [g_gen]: sampled_alloc_handle_generator; [g_info]: the sample of a handle; [g_frag]: sampled_internal_fragmentation_;
    [g_size]: sampled_objects_size_; [g_count]: total_sampled_count_; [g_reg]: the recorder; [g_as], [g_ds]: the lists of profiles in
    progress; [g_dlock], [g_plock]: who holds profilers_lock_, recorder_lock_; [g_peak], [g_prec]: the peak and its samples;
    [g_live]: the objects that the program has.  Not in the code: [g_ever]: what was ever registered; [g_rep], [g_drep]: what was
    reported to allocation and to lifetime profiles; [g_dead]: what was freed. *)
Record pstate := P {
  g_gen : Z; g_info : Z -> sample; g_frag : Z; g_size : Z; g_count : Z; g_reg : list Z; g_as : list asession; g_ds : list dsession;
  g_dlock : option Z; g_plock : option Z; g_peak : Z; g_prec : list Z; g_pc : Z -> ppc; g_live : list Z;
  g_ever : list Z; g_rep : list Z; g_drep : list Z; g_dead : list Z }.

Definition pinit : pstate :=
  P 0 (fun _ => Smp 0 0 0 0) 0 0 0 [] [] [] None None 0 [] (fun _ => PIdle) [] [] [] [] [].

(** ** Effects *)
Definition pto (s : pstate) (t : Z) (q : ppc) : pstate :=
  P (g_gen s) (g_info s) (g_frag s) (g_size s) (g_count s) (g_reg s) (g_as s) (g_ds s) (g_dlock s) (g_plock s) (g_peak s) (g_prec s)
    (upd (g_pc s) t q) (g_live s) (g_ever s) (g_rep s) (g_drep s) (g_dead s).
Definition with_handle (s : pstate) (x : sample) : pstate :=
  P (g_gen s + 1) (upd (g_info s) (g_gen s + 1) x) (g_frag s) (g_size s) (g_count s) (g_reg s) (g_as s) (g_ds s) (g_dlock s) (g_plock s)
    (g_peak s) (g_prec s) (g_pc s) (g_live s) (g_ever s) (g_rep s) (g_drep s) (g_dead s).
Definition add_frag (s : pstate) (v : Z) : pstate :=
  P (g_gen s) (g_info s) (g_frag s + v) (g_size s) (g_count s) (g_reg s) (g_as s) (g_ds s) (g_dlock s) (g_plock s) (g_peak s) (g_prec s)
    (g_pc s) (g_live s) (g_ever s) (g_rep s) (g_drep s) (g_dead s).
Definition add_size (s : pstate) (v c : Z) : pstate :=
  P (g_gen s) (g_info s) (g_frag s) (g_size s + v) (g_count s + c) (g_reg s) (g_as s) (g_ds s) (g_dlock s) (g_plock s) (g_peak s) (g_prec s)
    (g_pc s) (g_live s) (g_ever s) (g_rep s) (g_drep s) (g_dead s).
Definition set_as (s : pstate) (l : list asession) (rep : list Z) : pstate :=
  P (g_gen s) (g_info s) (g_frag s) (g_size s) (g_count s) (g_reg s) l (g_ds s) (g_dlock s) (g_plock s) (g_peak s) (g_prec s)
    (g_pc s) (g_live s) (g_ever s) rep (g_drep s) (g_dead s).
Definition set_ds (s : pstate) (l : list dsession) (lk : option Z) (drep dead : list Z) : pstate :=
  P (g_gen s) (g_info s) (g_frag s) (g_size s) (g_count s) (g_reg s) (g_as s) l lk (g_plock s) (g_peak s) (g_prec s)
    (g_pc s) (g_live s) (g_ever s) (g_rep s) drep dead.
Definition set_reg (s : pstate) (l ever : list Z) : pstate :=
  P (g_gen s) (g_info s) (g_frag s) (g_size s) (g_count s) l (g_as s) (g_ds s) (g_dlock s) (g_plock s) (g_peak s) (g_prec s)
    (g_pc s) (g_live s) ever (g_rep s) (g_drep s) (g_dead s).
Definition set_peak (s : pstate) (lk : option Z) (v : Z) (l : list Z) : pstate :=
  P (g_gen s) (g_info s) (g_frag s) (g_size s) (g_count s) (g_reg s) (g_as s) (g_ds s) (g_dlock s) lk v l
    (g_pc s) (g_live s) (g_ever s) (g_rep s) (g_drep s) (g_dead s).
Definition set_lives (s : pstate) (l : list Z) : pstate :=
  P (g_gen s) (g_info s) (g_frag s) (g_size s) (g_count s) (g_reg s) (g_as s) (g_ds s) (g_dlock s) (g_plock s) (g_peak s) (g_prec s)
    (g_pc s) l (g_ever s) (g_rep s) (g_drep s) (g_dead s).

Definition member (x : Z) (l : list Z) : bool := existsb (Z.eqb x) l.

(** allocation_sample.h:74-81. *)
Definition as_report (h : Z) (a : asession) : asession := AS (a_id a) (h :: a_got a) (a_before a).
(** deallocation_profiler.cc:513-525: the entry of the handle is set. *)
Definition ds_malloc (h : Z) (d : dsession) : dsession :=
  DS (d_id d) (if member h (d_tab d) then d_tab d else h :: d_tab d) (d_out d) (d_live d) (d_dead d) (d_gen d).
(** deallocation_profiler.cc:527-555. *)
Definition ds_free (h : Z) (d : dsession) : dsession :=
  if member h (d_tab d) then DS (d_id d) (remove1 h (d_tab d)) ((h, true) :: d_out d) (d_live d) (d_dead d) (d_gen d)
  else DS (d_id d) (d_tab d) ((h, false) :: d_out d) (d_live d) (d_dead d) (d_gen d).
(** deallocation_profiler.cc:562-569: the new profile [id] is given the samples that the iteration found. *)
Definition ds_seed (id : Z) (found live : list Z) (d : dsession) : dsession :=
  if d_id d =? id then DS (d_id d) (found ++ d_tab d) (d_out d) (filter (fun h => member h live) (d_live d)) (d_dead d) (d_gen d) else d.

(** peak_heap_tracker.cc:38-42. *)
Definition is_new_peak (p : ppar) (s : pstate) : bool := g_peak s * p_num p <? g_size s * p_den p.
Definition ret (s : pstate) (t h : Z) : pstate := set_lives (pto s t PIdle) (h :: g_live s).

(** What a profile says when it is ready: the heap profile; an allocation profile; a lifetime profile: the pairs and lone
    deallocations, and the allocations not freed yet; the peak heap profile. *)
Inductive plabel := PNone | PHeap (l : list Z) | PAlloc (id : Z) (l : list Z) | PLife (id : Z) (out : list (Z * bool)) (open : list Z) | PPeak (l : list Z).

(** One step of a thread; [found]: what an iteration has found.  None: it waits for a lock. *)
Definition pstep (p : ppar) (s : pstate) (t : Z) (found : list Z) : option (pstate * plabel) :=
  match g_pc s t with
  | PIdle => None
  (* allocation_sampling.h:173-177 *)
  | M1 x => Some (pto (with_handle s x) t (M2 (g_gen s + 1)), PNone)
  (* allocation_sampling.h:183-188 *)
  | M2 h => Some (pto (add_frag s (p_frag p (g_info s h))) t (M3 h), PNone)
  (* allocation_sampling.h:207 *)
  | M3 h => Some (pto (set_as s (map (as_report h) (g_as s)) (h :: g_rep s)) t (M4 h), PNone)
  (* allocation_sampling.h:209, deallocation_profiler.cc:584-592 *)
  | M4 h =>
      match g_dlock s with
      | None => Some (pto (set_ds s (map (ds_malloc h) (g_ds s)) None (h :: g_drep s) (g_dead s)) t (M5 h), PNone)
      | Some _ => None
      end
  (* allocation_sampling.h:214-215 *)
  | M5 h => Some (pto (set_reg s (h :: g_reg s) (h :: g_ever s)) t (M6 h), PNone)
  (* allocation_sampling.h:218, span.cc:46-60 *)
  | M6 h => Some (pto (add_size s (p_bytes p (g_info s h)) 1) t (M7 h), PNone)
  (* allocation_sampling.h:220, peak_heap_tracker.cc:44-47 *)
  | M7 h => if (p_num p <=? 0) || negb (is_new_peak p s) then Some (ret s t h, PNone) else Some (pto s t (M8 h), PNone)
  (* peak_heap_tracker.cc:49-55 *)
  | M8 h =>
      match g_plock s with
      | None => if negb (is_new_peak p s) then Some (ret s t h, PNone) else Some (pto (set_peak s (Some t) (g_peak s) (g_prec s)) t (M9 h), PNone)
      | Some _ => None
      end
  (* peak_heap_tracker.cc:56: the size is read again *)
  | M9 h => Some (pto s t (M10 h (g_size s)), PNone)
  (* peak_heap_tracker.cc:56-62 *)
  | M10 h v => Some (pto (set_peak s (g_plock s) v []) t (M11 h (g_reg s) (g_ever s)), PNone)
  (* peak_heap_tracker.cc:62-68 *)
  | M11 h reg0 ever0 => Some (ret (set_peak s None (g_peak s) found) t h, PNone)
  (* allocation_sampling.h:268, span.cc:62-80 *)
  | F1 h => Some (pto (add_size s (- p_bytes p (g_info s h)) 0) t (F2 h), PNone)
  (* allocation_sampling.h:378 *)
  | F2 h => Some (pto (set_reg s (remove1 h (g_reg s)) (g_ever s)) t (F3 h), PNone)
  (* allocation_sampling.h:380-390; the assert of line 387-388 *)
  | F3 h => if p_frag p (g_info s h) <=? g_frag s then Some (pto (add_frag s (- p_frag p (g_info s h))) t (F4 h), PNone) else None
  (* allocation_sampling.h:393, deallocation_profiler.cc:594-602 *)
  | F4 h =>
      match g_dlock s with
      | None => Some (pto (set_ds s (map (ds_free h) (g_ds s)) None (g_drep s) (h :: g_dead s)) t PIdle, PNone)
      | Some _ => None
      end
  (* allocation_sampling.cc:50-58 *)
  | Dump reg0 ever0 => Some (pto s t PIdle, PHeap found)
  (* deallocation_profiler.cc:563-569 *)
  | Seed id reg0 ever0 =>
      Some (pto (set_ds s (map (ds_seed id found (g_live s)) (g_ds s)) None (g_drep s) (g_dead s)) t PIdle, PNone)
  end.

(** What an iteration that began with [reg0] registered and [ever0] registered until then can find. *)
Definition found_ok (s : pstate) (reg0 ever0 found : list Z) : Prop :=
  NoDup found /\
  (forall h, In h reg0 -> In h (g_reg s) -> In h found) /\
  (forall h, In h found -> In h reg0 \/ (In h (g_ever s) /\ ~ In h ever0)).
Definition iter_ok (s : pstate) (t : Z) (found : list Z) : Prop :=
  match g_pc s t with M11 _ r e | Dump r e | Seed _ r e => found_ok s r e found | _ => True end.

(** Calls.  The free of an object that is not sampled, and malloc when no sample is taken, do nothing here. *)
Inductive pop := OMallocS (x : sample) | OFreeS (h : Z) | OHeap | OPeak | OAStart (id : Z) | OAStop (id : Z) | ODStart (id : Z) | ODStop (id : Z).

Definition pcall (s : pstate) (t : Z) (o : pop) : option (pstate * plabel) :=
  match o with
  | OMallocS x => Some (pto s t (M1 x), PNone)
  | OFreeS h => if member h (g_live s) then Some (set_lives (pto s t (F1 h)) (remove1 h (g_live s)), PNone) else None
  | OHeap => Some (pto s t (Dump (g_reg s) (g_ever s)), PNone)
  (* peak_heap_tracker.cc:70-80 *)
  | OPeak => match g_plock s with None => Some (s, PPeak (g_prec s)) | Some _ => None end
  (* allocation_sample.cc:30-35, allocation_sample.h:55-59 *)
  | OAStart id => if member id (map a_id (g_as s)) then None else Some (set_as s (AS id [] (g_rep s) :: g_as s) (g_rep s), PNone)
  (* allocation_sample.cc:46-56, allocation_sample.h:62-72 *)
  | OAStop id =>
      match find (fun a => a_id a =? id) (g_as s) with
      | Some a => Some (set_as s (filter (fun a => negb (a_id a =? id)) (g_as s)) (g_rep s), PAlloc id (a_got a))
      | None => None
      end
  (* deallocation_profiler.cc:490-494, 558-562 *)
  | ODStart id =>
      if member id (map d_id (g_ds s)) then None
      else match g_dlock s with
           | None => Some (pto (set_ds s (DS id [] [] (g_live s) (g_dead s) (g_gen s) :: g_ds s) (Some t) (g_drep s) (g_dead s)) t
                             (Seed id (g_reg s) (g_ever s)), PNone)
           | Some _ => None
           end
  (* deallocation_profiler.cc:501-511, 572-582, 611-627 *)
  | ODStop id =>
      match g_dlock s, find (fun d => d_id d =? id) (g_ds s) with
      | None, Some d => Some (set_ds s (filter (fun d => negb (d_id d =? id)) (g_ds s)) None (g_drep s) (g_dead s), PLife id (d_out d) (d_tab d))
      | _, _ => None
      end
  end.

(** A move of a thread [t]: it calls a function, or takes a step of the one it is in. *)
Inductive pmove (p : ppar) : pstate -> Z * plabel -> pstate -> Prop :=
| PM_call s t o s' l : 0 <= t < p_nthr p -> g_pc s t = PIdle -> pcall s t o = Some (s', l) -> pmove p s (t, l) s'
| PM_step s t found s' l : 0 <= t < p_nthr p -> iter_ok s t found -> pstep p s t found = Some (s', l) -> pmove p s (t, l) s'.

Inductive pruns (p : ppar) : pstate -> list (Z * plabel) -> pstate -> Prop :=
| PR_nil s : pruns p s [] s
| PR_cons s m s1 ms s2 : pmove p s m s1 -> pruns p s1 ms s2 -> pruns p s (m :: ms) s2.
Definition preach (p : ppar) (s : pstate) : Prop := exists ms, pruns p pinit ms s.
