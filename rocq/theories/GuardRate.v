(** Model of the decision to guard a sampled allocation: tcmalloc/guarded_page_allocator.cc,
    TrySample.  The counters do not overflow; the two intervals do not change. *)
From Verif Require Import Base.

(** malloc_extension.h Profile::Sample::GuardedStatus, as far as TrySample answers them, and
    [GoAhead] where it calls Allocate. *)
Inductive decision := TooLarge | Disabled | RateLimited | Filtered | GoAhead.

(** guarded_page_allocator.cc:139-143: [sampled] and [guarded] are the counts so far; [G] and [P]
    are the guarded and the profile sampling interval.  64-bit division of counts. *)
Definition rate_limited (G P sampled guarded : Z) : bool :=
  let ratio := sampled * 10 / guarded in
  ratio * P <? G * 10.

(** guarded_page_allocator.cc:145-156: [rnd] is the random number, [covered] what the filter says. *)
Definition filtered (covered : bool) (allocated max_allocated rnd : Z) : bool :=
  covered && (let usage_pct := allocated * 100 / max_allocated in rnd mod 50 <=? usage_pct).

(** guarded_page_allocator.cc:99-166 TrySample up to the call of Allocate. *)
Definition try_sample (G P pages sampled guarded : Z) (covered : bool) (allocated max_allocated rnd : Z) : decision :=
  if 1 <? pages then TooLarge
  else if G <? 0 then Disabled
  else if (0 <? G) && (0 <? guarded) then
    if rate_limited G P sampled guarded then RateLimited
    else if filtered covered allocated max_allocated rnd then Filtered
    else GoAhead
  else GoAhead.

(** The threads.  The counts are read one after the other (:114, :139), the slot is taken under a
    lock (:422-446) and the page made accessible after that (:185-192). *)
Inductive call :=
| CLoaded (pages guarded : Z)     (* has read the number of guarded allocations *)
| CPassed                         (* is about to call ReserveFreeSlot *)
| CReserved.                      (* has a slot *)
(** [r_alloc]: allocated_pages_; [r_live]: the guarded allocations handed out and not yet freed. *)
Record grst := mk_grst { r_guarded : Z; r_sampled : Z; r_alloc : Z; r_live : Z; r_calls : list call }.

(** One step of one of [T] threads; [M] is max_allocated_pages_. *)
Inductive gr_step (T : nat) (G P M : Z) : grst -> grst -> Prop :=
(* :102-114 *)
| gr_begin g s a v l pages : (length l < T)%nat ->
    gr_step T G P M (mk_grst g s a v l) (mk_grst g s a v (CLoaded pages g :: l))
(* :139-166; the filter and the random number may say anything *)
| gr_decide g s a v l1 l2 pages g0 covered rnd l' :
    l' = (match try_sample G P pages s g0 covered a M rnd with GoAhead => [CPassed] | _ => [] end) ->
    gr_step T G P M (mk_grst g s a v (l1 ++ CLoaded pages g0 :: l2)) (mk_grst g s a v (l1 ++ l' ++ l2))
(* :422-446 *)
| gr_reserve g s a v l1 l2 : a < M ->
    gr_step T G P M (mk_grst g s a v (l1 ++ CPassed :: l2)) (mk_grst (g + 1) s (a + 1) v (l1 ++ CReserved :: l2))
| gr_noslot g s a v l1 l2 : M <= a ->
    gr_step T G P M (mk_grst g s a v (l1 ++ CPassed :: l2)) (mk_grst g s a v (l1 ++ l2))
(* :185-192 *)
| gr_mprotect_fails g s a v l1 l2 :
    gr_step T G P M (mk_grst g s a v (l1 ++ CReserved :: l2)) (mk_grst (g - 1) s (a - 1) v (l1 ++ l2))
| gr_guarded g s a v l1 l2 :
    gr_step T G P M (mk_grst g s a v (l1 ++ CReserved :: l2)) (mk_grst g s a (v + 1) (l1 ++ l2))
(* span.cc:59, when a sampled allocation is complete *)
| gr_sampled g s a v l : gr_step T G P M (mk_grst g s a v l) (mk_grst g (s + 1) a v l)
(* a guarded allocation is freed, :458-465 *)
| gr_freed g s a v l : 0 < v -> gr_step T G P M (mk_grst g s a v l) (mk_grst g s (a - 1) (v - 1) l).

Inductive gr_reach (T : nat) (G P M : Z) : grst -> Prop :=
| gr_init : gr_reach T G P M (mk_grst 0 0 0 0 [])
| gr_next st st' : gr_reach T G P M st -> gr_step T G P M st st' -> gr_reach T G P M st'.

(** A single thread that samples [n] allocations of one page, none of them covered by the filter, while
    slots are free: how many of them are guarded. *)
Fixpoint seq_run (G P : Z) (n : nat) : Z * Z :=
  match n with
  | O => (0, 0)
  | S n => let '(guarded, sampled) := seq_run G P n in
    (match try_sample G P 1 sampled guarded false 0 1 0 with GoAhead => guarded + 1 | _ => guarded end, sampled + 1)
  end.
