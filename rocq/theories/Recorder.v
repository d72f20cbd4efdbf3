(** Model of tcmalloc/internal/sampled_allocation_recorder.h, shared-memory steps.

    A sample is the address the allocator gave it (positive, never freed while the recorder exists), [0] is nullptr and
    [grave] is the address of [graveyard_].  What is done under the lock of the graveyard together with the lock of one
    sample is one step: every access to the [dead] field of a sample is made with its lock held and every access to the list of
    the dead with the lock of the graveyard held.  UnregisterAll keeps the lock of the graveyard and takes one sample at a time,
    Iterate takes one sample at a time, PushNew takes no lock: these are several steps.  Memory is sequentially
    consistent.  The contents of a sample is a number. *)
From Verif Require Import Base.

Definition grave : Z := -1.

(** The members and those of the samples, internal/sampled_allocation_recorder.h:42-48, :125-129. *)
Record rc := Rc {
  rc_all : Z;                 (* all_ *)
  rc_next : Z -> Z;           (* next of a sample *)
  rc_dead : Z -> Z;           (* dead of a sample, of the graveyard at [grave] *)
  rc_data : Z -> Z            (* what was sampled *)
}.
(** The constructor, :138-142. *)
Definition rc_init : rc := Rc 0 (fun _ => 0) (upd (fun _ => 0) grave grave) (fun _ => 0).

(** PushDead below the dispose callback (which is not modelled), :169-172. *)
Definition push_dead (c : rc) (p : Z) : rc :=
  let d := upd (rc_dead c) p (rc_dead c grave) in
  Rc (rc_all c) (rc_next c) (upd d grave p) (rc_data c).

(** PopDead, :175-191: None when there is no dead sample. *)
Definition pop_dead (c : rc) (x : Z) : option (rc * Z) :=
  let p := rc_dead c grave in
  if p =? grave then None
  else let d := upd (rc_dead c) grave (rc_dead c p) in
       Some (Rc (rc_all c) (rc_next c) (upd d p 0) (upd (rc_data c) p x), p).

(** Register, :193-204, when PopDead gave none: the allocator makes the sample [p]. *)
Definition new_sample (c : rc) (p x : Z) : rc :=
  Rc (rc_all c) (upd (rc_next c) p 0) (upd (rc_dead c) p 0) (upd (rc_data c) p x).
(** PushNew, :153-160: the first load, and the load of a failed compare-exchange; a compare-exchange that succeeds. *)
Definition push_load (c : rc) (p : Z) : rc := Rc (rc_all c) (upd (rc_next c) p (rc_all c)) (rc_dead c) (rc_data c).
Definition push_cas (c : rc) (p : Z) : option rc :=
  if rc_all c =? rc_next c p then Some (Rc p (rc_next c) (rc_dead c) (rc_data c)) else None.

(** UnregisterAll, :211-227: what is done for the sample [p], with the lock of the graveyard. *)
Definition unregister_one (c : rc) (p : Z) : rc := if rc_dead c p =? 0 then push_dead c p else c.

(** Iterate, :229-240: what is reported for the sample [p]. *)
Definition iterate_one (c : rc) (p : Z) : list (Z * Z) := if rc_dead c p =? 0 then [(p, rc_data c p)] else [].

(** Where the callers are.  [pushing] lists the samples in PushNew (the flag tells that the first load was made); [ua] is the sample that an UnregisterAll
    under way will look at next; the reader is inside Iterate at the sample [p]. *)
Inductive reader := Idle | At (p : Z) (out : list (Z * Z)).
Record rsys := RSys {
  rs_rc : rc;
  rs_pushing : Z -> option bool;   (* None: not in PushNew; Some b: b tells whether the first load was made *)
  rs_ua : option Z;
  rs_reader : reader
}.
Definition rs_init : rsys := RSys rc_init (fun _ => None) None Idle.

(** One step of the callers of Register, Unregister and UnregisterAll, and what it does: the allocator gives a sample,
    Register returns, a sample is unregistered by Unregister or by UnregisterAll. *)
Inductive revent := RNothing | RAllocated (p : Z) | RRegistered (p x : Z) | RUnregistered (p : Z) | RDropped (p : Z).
Inductive rcstep : rsys -> revent -> rsys -> Prop :=
| rc_reuse c un rd c' p x : pop_dead c x = Some (c', p) ->              (* the lock of the graveyard is free *)
    rcstep (RSys c un None rd) (RRegistered p x) (RSys c' un None rd)
| rc_new c un rd un' p x : pop_dead c x = None -> un' = upd un p (Some false) ->
    rcstep (RSys c un None rd) (RAllocated p) (RSys (new_sample c p x) un' None rd)
| rc_load c un ua rd un' p : un p = Some false -> un' = upd un p (Some true) ->
    rcstep (RSys c un ua rd) RNothing (RSys (push_load c p) un' ua rd)
| rc_cas_fail c un ua rd p : un p = Some true ->                        (* also a spurious failure *)
    rcstep (RSys c un ua rd) RNothing (RSys (push_load c p) un ua rd)
| rc_cas c un ua rd un' p c' : un p = Some true -> push_cas c p = Some c' -> un' = upd un p None ->
    rcstep (RSys c un ua rd) (RRegistered p (rc_data c p)) (RSys c' un' ua rd)
| rc_unregister c un rd p :                                             (* the lock of the graveyard is free *)
    rcstep (RSys c un None rd) (RUnregistered p) (RSys (push_dead c p) un None rd)
| rc_all_start c un rd :
    rcstep (RSys c un None rd) RNothing (RSys c un (Some (rc_all c)) rd)
| rc_all_next c un rd p : p <> 0 ->
    rcstep (RSys c un (Some p) rd) (if rc_dead c p =? 0 then RDropped p else RNothing)
           (RSys (unregister_one c p) un (Some (rc_next c p)) rd)
| rc_all_end c un rd :
    rcstep (RSys c un (Some 0) rd) RNothing (RSys c un None rd).

(** One step of Iterate. *)
Inductive itstep : rsys -> rsys -> Prop :=
| it_next c un ua p out : p <> 0 ->
    itstep (RSys c un ua (At p out)) (RSys c un ua (At (rc_next c p) (out ++ iterate_one c p))).
