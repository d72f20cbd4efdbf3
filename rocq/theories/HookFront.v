(** Model of the calls of allocation hooks: tcmalloc.cc (malloc, free and realloc as far as hooks are concerned),
    malloc_hook.cc, and the way off the fast path in cpu_cache.h.  Any number of threads, each step of one of them.
    The list of hooks is that of HookList.v (C30), here changed and read in one step and without its order; sampling, the
    caches and the page heap are reduced to where objects come from and whether the slab of the thread is cached. *)
From Verif Require Import Base.

Inductive hkind := KNew | KDelete.

(** What happened, newest first.  [ENew t p calls]: thread t's allocation of p was announced to the
    hooks [calls]; [ESilentNew]: it was not.  [EOff t]: t left the fast path.  [EInserted], [ERemoved]: the list was changed;
    [EChanged t]: t's call of AddHook or RemoveHook returned; [EEmptied]: no hook is left. *)
Inductive hev :=
| ENew (t p : Z) (calls : list Z) | EDelete (t p : Z) (calls : list Z)
| ESilentNew (t p : Z) | ESilentDelete (t p : Z)
| EInserted (t : Z) (k : hkind) (h : Z) | ERemoved (t : Z) (k : hkind) (h : Z) | EChanged (t : Z)
| EOff (t : Z) | EEmptied.

(** Where a thread is. *)
Inductive hpc :=
| HIdle
| HChange                       (* in AddHook or RemoveHook, the list is changed: malloc_hook.cc:67-97 *)
| HAlloc (hooks : bool)         (* in slow_alloc_small, tcmalloc.cc:1237-1243 decided *)
| HGot (p : Z)                  (* in AllocateSlow, cpu_cache.h:1175 done *)
| HTell (p : Z)                 (* before InvokeNewHook, tcmalloc.cc:1216 and :1260 *)
| HFree (p : Z) (hooks : bool)  (* in FreeSmallSlow, tcmalloc.cc:602-603 decided *)
| HTold (p : Z)                 (* in FreeWithHooksOrPerThread, after InvokeDeleteHook, tcmalloc.cc:578 *)
| HPut                          (* in DeallocateSlow, cpu_cache.h:2118 done *)
| HToldLarge (p : Z)            (* in InvokeHooksAndFreePages, after InvokeDeleteHook, tcmalloc.cc:706 *)
| HRealloc (p : Z).             (* in do_realloc, between the hooks of an unchanged object, tcmalloc.cc:1624-1627 *)

(** [f_cached t]: tcmalloc_slabs of thread t has the slab cached (internal/percpu_tcmalloc.h:1023-1038).
    [f_out p]: object p is not in the allocator's hands.  Hook 0 is InitialNewHook. *)
Record hfront := mk_hf {
  f_new : list Z; f_del : list Z; f_cached : Z -> bool; f_pc : Z -> hpc; f_out : Z -> bool; f_log : list hev }.
(** malloc_hook.cc:50-51. *)
Definition hf0 : hfront := mk_hf [0] [] (fun _ => false) (fun _ => HIdle) (fun _ => false) [].

(** static_vars.h:190-198 HaveHooks. *)
Definition is_nil {A} (l : list A) : bool := match l with [] => true | _ => false end.
Definition have_hooks (new del : list Z) : bool := negb (is_nil new) || negb (is_nil del).

Fixpoint remove1 (h : Z) (l : list Z) : list Z :=
  match l with [] => [] | x :: l => if x =? h then l else x :: remove1 h l end.

(** cpu_cache.h:868-872 MaybeForceSlowPath, of the thread that calls it. *)
Definition force (new del : list Z) (c : Z -> bool) (t : Z) : Z -> bool := if have_hooks new del then upd c t false else c.
Definition forced (new del : list Z) (t : Z) : list hev := if have_hooks new del then [EOff t] else [].
Definition emptied (new del : list Z) : list hev := if have_hooks new del then [] else [EEmptied].

(** internal/hook_list.h:160-167 InvokeSlow with malloc_hook.cc:42-48 InitialNewHook: each hook of the copy that was
    taken; the initial one removes itself and calls the hooks of the list anew. *)
Definition new_calls (new : list Z) : list Z :=
  flat_map (fun h => if h =? 0 then remove1 0 new else [h]) new.

(** internal/hook_list.h:40, :103-121 Add. *)
Definition hook_limit : Z := 7.
Definition can_add (l : list Z) : bool := Z.of_nat (length l) <? hook_limit.

(** The object a thread is allocating or freeing. *)
Definition held (x : hpc) : option Z :=
  match x with
  | HGot p | HTell p | HFree p _ | HTold p | HToldLarge p | HRealloc p => Some p
  | _ => None
  end.

(** An object is freed or reallocated only while it is in use and not being freed. *)
Inductive hstep : hfront -> hfront -> Prop :=
(* rescheduling, stopping of the CPU: the slab is no longer cached *)
| hs_uncache : forall t n d c pc o l, hstep (mk_hf n d c pc o l) (mk_hf n d (upd c t false) pc o l)
(* malloc_hook.cc:65-97 *)
| hs_add_new : forall t h n d c pc o l, pc t = HIdle -> h <> 0 -> can_add n = true ->
    hstep (mk_hf n d c pc o l) (mk_hf (n ++ [h]) d c (upd pc t HChange) o (EInserted t KNew h :: l))
| hs_add_del : forall t h n d c pc o l, pc t = HIdle -> h <> 0 -> can_add d = true ->
    hstep (mk_hf n d c pc o l) (mk_hf n (d ++ [h]) c (upd pc t HChange) o (EInserted t KDelete h :: l))
| hs_remove_new : forall t h n d c pc o l, pc t = HIdle -> h <> 0 -> In h n ->
    hstep (mk_hf n d c pc o l)
          (mk_hf (remove1 h n) d c (upd pc t HChange) o (emptied (remove1 h n) d ++ ERemoved t KNew h :: l))
| hs_remove_del : forall t h n d c pc o l, pc t = HIdle -> h <> 0 -> In h d ->
    hstep (mk_hf n d c pc o l)
          (mk_hf n (remove1 h d) c (upd pc t HChange) o (emptied n (remove1 h d) ++ ERemoved t KDelete h :: l))
| hs_changed : forall t n d c pc o l, pc t = HChange ->
    hstep (mk_hf n d c pc o l) (mk_hf n d (force n d c t) (upd pc t HIdle) o (EChanged t :: forced n d t ++ l))
(* tcmalloc.cc:1301-1308: the fast path, if the slab is cached *)
| hs_alloc_fast : forall t p n d c pc o l, pc t = HIdle -> c t = true -> o p = false ->
    hstep (mk_hf n d c pc o l) (mk_hf n d c pc (upd o p true) (ESilentNew t p :: l))
(* tcmalloc.cc:1237-1243: [other]: to be sampled, or caches per thread *)
| hs_alloc_slow : forall t other n d c pc o l, pc t = HIdle ->
    hstep (mk_hf n d c pc o l) (mk_hf n d c (upd pc t (HAlloc (have_hooks n d || other))) o l)
(* tcmalloc.cc:1246-1250; cpu_cache.h:1185 caches the slab unless the CPU is stopped *)
| hs_alloc_no_hooks : forall t p b n d c pc o l, pc t = HAlloc false -> o p = false ->
    hstep (mk_hf n d c pc o l) (mk_hf n d (upd c t b) (upd pc t HIdle) (upd o p true) (ESilentNew t p :: l))
(* tcmalloc.cc:1207, cpu_cache.h:1174-1178 *)
| hs_alloc_hooks : forall t p b n d c pc o l, pc t = HAlloc true -> o p = false ->
    hstep (mk_hf n d c pc o l) (mk_hf n d (upd c t b) (upd pc t (HGot p)) (upd o p true) l)
| hs_alloc_force : forall t p n d c pc o l, pc t = HGot p ->
    hstep (mk_hf n d c pc o l) (mk_hf n d (force n d c t) (upd pc t (HTell p)) o (forced n d t ++ l))
(* tcmalloc.cc:1203-1204, :1209: sampled, or from the cache of the thread *)
| hs_alloc_other : forall t p n d c pc o l, pc t = HAlloc true -> o p = false ->
    hstep (mk_hf n d c pc o l) (mk_hf n d c (upd pc t (HTell p)) (upd o p true) l)
(* tcmalloc.cc:1255-1257: large *)
| hs_alloc_large : forall t p n d c pc o l, pc t = HIdle -> o p = false ->
    hstep (mk_hf n d c pc o l) (mk_hf n d c (upd pc t (HTell p)) (upd o p true) l)
| hs_tell_new : forall t p n d c pc o l, pc t = HTell p -> ~ In 0 n ->
    hstep (mk_hf n d c pc o l) (mk_hf n d c (upd pc t HIdle) o (ENew t p (new_calls n) :: l))
(* the initial hook is there: malloc_hook.cc:56-62 *)
| hs_tell_first : forall t p n d c pc o l, pc t = HTell p -> In 0 n ->
    hstep (mk_hf n d c pc o l)
          (mk_hf (remove1 0 n) d (force (remove1 0 n) d c t) (upd pc t HIdle) o
                 (ENew t p (new_calls n) :: forced (remove1 0 n) d t ++ emptied (remove1 0 n) d ++ l))
(* tcmalloc.cc:623-626: DeallocateFast *)
| hs_free_fast : forall t p n d c pc o l, pc t = HIdle -> c t = true -> o p = true ->
    (forall u, held (pc u) <> Some p) ->
    hstep (mk_hf n d c pc o l) (mk_hf n d c pc (upd o p false) (ESilentDelete t p :: l))
(* tcmalloc.cc:602-603 *)
| hs_free_slow : forall t p other n d c pc o l, pc t = HIdle -> o p = true ->
    (forall u, held (pc u) <> Some p) ->
    hstep (mk_hf n d c pc o l) (mk_hf n d c (upd pc t (HFree p (have_hooks n d || other))) o l)
(* tcmalloc.cc:606 *)
| hs_free_no_hooks : forall t p b n d c pc o l, pc t = HFree p false ->
    hstep (mk_hf n d c pc o l) (mk_hf n d (upd c t b) (upd pc t HIdle) (upd o p false) (ESilentDelete t p :: l))
(* tcmalloc.cc:578 *)
| hs_tell_delete : forall t p n d c pc o l, pc t = HFree p true ->
    hstep (mk_hf n d c pc o l) (mk_hf n d c (upd pc t (HTold p)) o (EDelete t p d :: l))
(* tcmalloc.cc:582, cpu_cache.h:2117-2120 *)
| hs_free_put : forall t p b n d c pc o l, pc t = HTold p ->
    hstep (mk_hf n d c pc o l) (mk_hf n d (upd c t b) (upd pc t HPut) (upd o p false) l)
| hs_free_force : forall t n d c pc o l, pc t = HPut ->
    hstep (mk_hf n d c pc o l) (mk_hf n d (force n d c t) (upd pc t HIdle) o (forced n d t ++ l))
(* tcmalloc.cc:583-592: the cache of the thread, or none *)
| hs_free_other : forall t p n d c pc o l, pc t = HTold p ->
    hstep (mk_hf n d c pc o l) (mk_hf n d c (upd pc t HIdle) (upd o p false) l)
(* tcmalloc.cc:706-745: large or sampled *)
| hs_free_large : forall t p n d c pc o l, pc t = HIdle -> o p = true ->
    (forall u, held (pc u) <> Some p) ->
    hstep (mk_hf n d c pc o l) (mk_hf n d c (upd pc t (HToldLarge p)) o (EDelete t p d :: l))
| hs_free_large_put : forall t p n d c pc o l, pc t = HToldLarge p ->
    hstep (mk_hf n d c pc o l) (mk_hf n d c (upd pc t HIdle) (upd o p false) l)
(* tcmalloc.cc:1622-1629: realloc that keeps the object *)
| hs_realloc : forall t p n d c pc o l, pc t = HIdle -> o p = true ->
    (forall u, held (pc u) <> Some p) ->
    hstep (mk_hf n d c pc o l) (mk_hf n d c (upd pc t (HRealloc p)) o (EDelete t p d :: l))
| hs_realloc_new : forall t p n d c pc o l, pc t = HRealloc p -> ~ In 0 n ->
    hstep (mk_hf n d c pc o l) (mk_hf n d c (upd pc t HIdle) o (ENew t p (new_calls n) :: l)).

Inductive hreach : hfront -> Prop :=
| hr_init : hreach hf0
| hr_step : forall s s', hreach s -> hstep s s' -> hreach s'.
