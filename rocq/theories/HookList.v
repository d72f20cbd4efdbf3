(** Model of tcmalloc/internal/hook_list.h: writers hold a lock, a reader takes none, and every
    load and store of [priv_end] and [priv_data] that can matter to it is one step.  The loads of
    a writer are made together, when it has the lock: nothing it loads can change before it
    releases it.  Memory is sequentially consistent; the acquire and release orders of the code are
    not modelled.  A hook is a number, [0] is the null pointer. *)
From Verif Require Import Base.

Definition k_max_hooks : Z := 7.     (* kHookListMaxValues, internal/hook_list.h:38 *)

(** The members, internal/hook_list.h:99-100. *)
Record hooks := Hooks { hk_data : Z -> Z; hk_end : Z }.
Definition hk_init : hooks := Hooks (fun _ => 0) 0.

(** The first index from [i] on, below [i + n], at which [f] holds. *)
Fixpoint first_at (f : Z -> bool) (i : Z) (n : nat) : option Z :=
  match n with
  | O => None
  | S n => if f i then Some i else first_at f (i + 1) n
  end.

(** A writer with the lock: what it will do next. *)
Inductive wpc :=
| WFree                       (* nobody has the lock *)
| WAddData (v i prev : Z)     (* Add: about to store priv_data[i] *)
| WAddEnd (v i prev : Z)      (* about to store priv_end if needed, and to release the lock *)
| WRemData (v i e : Z)        (* Remove: about to clear priv_data[i] *)
| WRemEnd (v i e : Z).        (* about to lower priv_end if needed, and to release the lock *)

(** A reader in Traverse: [e] is hooks_end, [i] the index, [n] what is left of the room. *)
Inductive rpc :=
| RIdle
| RLoop (i e n : Z) (out : list Z)
| RDone (out : list Z).

(** Add, internal/hook_list.h:103-124, up to the first store: None is the result when it returns
    false. *)
Definition add_begin (h : hooks) (v : Z) : option wpc :=
  if v =? 0 then None
  else match first_at (fun i => hk_data h i =? 0) 0 (Z.to_nat k_max_hooks) with
       | None => None
       | Some i => Some (WAddData v i (hk_end h))
       end.
Definition add_data (h : hooks) (v i : Z) : hooks := Hooks (upd (hk_data h) i v) (hk_end h).          (* :119 *)
Definition add_end (h : hooks) (i prev : Z) : hooks :=
  if prev <=? i then Hooks (hk_data h) (i + 1) else h.                                               (* :120-122 *)

(** Remove, internal/hook_list.h:126-152. *)
Definition remove_begin (h : hooks) (v : Z) : option wpc :=
  if v =? 0 then None
  else match first_at (fun i => hk_data h i =? v) 0 (Z.to_nat (hk_end h)) with
       | None => None
       | Some i => Some (WRemData v i (hk_end h))
       end.
Definition remove_data (h : hooks) (i : Z) : hooks := Hooks (upd (hk_data h) i 0) (hk_end h).          (* :141 *)
(** :145-148 *)
Fixpoint lower_end (d : Z -> Z) (n : nat) : Z :=
  match n with
  | O => 0
  | S m => if d (Z.of_nat m) =? 0 then lower_end d m else Z.of_nat n
  end.
Definition remove_end (h : hooks) (i e : Z) : hooks :=
  if e =? i + 1 then Hooks (hk_data h) (lower_end (hk_data h) (Z.to_nat i)) else h.                  (* :142-150 *)

(** Traverse, internal/hook_list.h:154-167: the load of priv_end, and one turn of the loop.  Invoke
    (:84-89, :171-177) calls it with room for kHookListMaxValues and then calls each hook reported. *)
Definition traverse_begin (h : hooks) (n : Z) : rpc := RLoop 0 (hk_end h) n [].
Definition traverse_next (h : hooks) (i e n : Z) (out : list Z) : rpc :=
  if (i <? e) && (0 <? n) then
    let d := hk_data h i in
    if d =? 0 then RLoop (i + 1) e n out else RLoop (i + 1) e (n - 1) (out ++ [d])
  else RDone out.

(** empty, internal/hook_list.h:71-78. *)
Definition hk_empty (h : hooks) : bool := hk_end h =? 0.

(** The system: the list, the writer that has the lock, and one reader (readers do not affect
    each other or the writers). *)
Record sys := Sys { sy_hooks : hooks; sy_writer : wpc; sy_reader : rpc }.
Definition sy_init : sys := Sys hk_init WFree RIdle.

(** One step of the writers.  The label tells what is observed: a call that returns at once, a call
    that takes the lock to store something, a store, a call that returns true. *)
Inductive event := EFail | EBegin | EStore | EAdded (v : Z) | ERemoved (v : Z).
Inductive wstep : sys -> event -> sys -> Prop :=
| ws_add_fail h r v : add_begin h v = None -> wstep (Sys h WFree r) EFail (Sys h WFree r)
| ws_add h r v w : add_begin h v = Some w -> wstep (Sys h WFree r) EBegin (Sys h w r)
| ws_add_data h r v i prev : wstep (Sys h (WAddData v i prev) r) EStore (Sys (add_data h v i) (WAddEnd v i prev) r)
| ws_add_end h r v i prev : wstep (Sys h (WAddEnd v i prev) r) (EAdded v) (Sys (add_end h i prev) WFree r)
| ws_remove_fail h r v : remove_begin h v = None -> wstep (Sys h WFree r) EFail (Sys h WFree r)
| ws_remove h r v w : remove_begin h v = Some w -> wstep (Sys h WFree r) EBegin (Sys h w r)
| ws_remove_data h r v i e : wstep (Sys h (WRemData v i e) r) EStore (Sys (remove_data h i) (WRemEnd v i e) r)
| ws_remove_end h r v i e : wstep (Sys h (WRemEnd v i e) r) (ERemoved v) (Sys (remove_end h i e) WFree r).

(** One step of the reader inside Traverse. *)
Inductive rstep : sys -> sys -> Prop :=
| rs_next h w i e n out : rstep (Sys h w (RLoop i e n out)) (Sys h w (traverse_next h i e n out)).
