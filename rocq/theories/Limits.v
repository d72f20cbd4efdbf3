(** Model of the memory limits of tcmalloc/page_allocator.{h,cc}.

    The heaps (HugePageAwareAllocator, one per tag) are behind an interface: a world [W] with the two ways of asking a heap to
    release pages, [rel w h n] for ReleaseAtLeastNPages and [brk w h n] for ReleaseAtLeastNPagesBreakingHugepages, which return
    the world afterwards and the pages reported as released, and [backed w], system_bytes - unmapped_bytes of all heaps plus the
    metadata bytes.  The lock is dropped while a heap gives memory back, so what other threads do meanwhile is part of the next world.  Sizes
    are natural numbers: that the sums do not exceed 2^64 is not checked. *)
From Verif Require Import Base.

Definition no_limit : Z := 2 ^ 64 - 1.      (* std::numeric_limits<size_t>::max() *)

(** Which heaps there are, page_allocator.cc:44-76: cold memory may have none of its own, there may be several partitions. *)
Inductive heap := Cold | Normal (i : nat) | Sampled (i : nat).
Record config := Config {
  cf_cold : bool;             (* has_cold_impl_ *)
  cf_partitions : nat;        (* active_partitions() *)
  cf_sampled : bool;          (* sampled_partition_active_ *)
  cf_subrelease : bool;       (* Parameters::hpaa_subrelease() *)
  cf_page : Z                 (* kPageSize *)
}.
(** The order in which they are asked, page_allocator.h:367-389 and page_allocator.cc:181-206. *)
Definition heaps (cf : config) : list heap :=
  (if cf_cold cf then [Cold] else []) ++ map Normal (seq 0 (cf_partitions cf)) ++
  map Sampled (seq 0 (if cf_sampled cf then 2 else 1)).

(** What a heap was asked and what it said: with breaking of hugepages or not, how many pages, how many were released. *)
Record call := Call { ca_break : bool; ca_heap : heap; ca_asked : Z; ca_got : Z }.

Definition op (W : Type) := W -> heap -> Z -> W * Z.

(** PageAllocator::ReleaseAtLeastNPages, page_allocator.h:367-389. *)
Fixpoint release_from {W} (rel : op W) (hs : list heap) (n : Z) (w : W) (released : Z) (log : list call) : W * Z * list call :=
  match hs with
  | [] => (w, released, log)
  | h :: hs =>
      let ask := if released <? n then n - released else 0 in
      let (w, got) := rel w h ask in
      release_from rel hs n w (released + got) (log ++ [Call false h ask got])
  end.
Definition release {W} (rel : op W) (cf : config) (n : Z) (w : W) : W * Z * list call := release_from rel (heaps cf) n w 0 [].

(** The loops of ShrinkHardBy, page_allocator.cc:181-209. *)
Fixpoint break_from {W} (brk : op W) (hs : list heap) (pages : Z) (w : W) (ret : Z) (log : list call) : W * bool * list call :=
  match hs with
  | [] => (w, pages <=? ret, log)
  | h :: hs =>
      let (w, got) := brk w h (pages - ret) in
      let ret' := ret + got in
      let log := log ++ [Call true h (pages - ret) got] in
      if pages <=? ret' then (w, true, log) else break_from brk hs pages w ret' log
  end.

(** ShrinkHardBy, page_allocator.cc:156-210; [hard] is limit_kind == kHard. *)
Definition shrink_by {W} (rel brk : op W) (cf : config) (hard : bool) (pages : Z) (w : W) : W * bool * list call :=
  let '(w, ret, log) := release rel cf pages w in
  if pages <=? ret then (w, true, log)
  else if hard && negb (cf_subrelease cf) then (w, false, log)
  else break_from brk (heaps cf) pages w ret log.

(** BytesToLengthCeil, pages.h:197-200. *)
Definition pages_ceil (cf : config) (bytes : Z) : Z := bytes / cf_page cf + (if bytes mod cf_page cf =? 0 then 0 else 1).

(** The members, page_allocator.h:225-243. *)
Record limits := Limits {
  lm_soft : Z; lm_hard : Z;
  lm_soft_hits : Z; lm_hard_hits : Z;
  lm_soft_ok : Z; lm_hard_ok : Z;          (* successful_shrinks_after_limit_hit_ *)
  lm_peak : Z; lm_peak_sampled : Z
}.
Definition lm_init : limits := Limits no_limit no_limit 0 0 0 0 0 0.

(** What ShrinkToUsageLimit comes to: it returns, or TC_BUG ends the process (page_allocator.cc:139). *)
Inductive outcome := Returns | Aborts.

(** ShrinkToUsageLimit, page_allocator.cc:78-154; [sampled] is sampled_objects_size_.  The calls to the heaps are returned. *)
Definition shrink_to_limit {W} (rel brk : op W) (backed : W -> Z) (cf : config) (lm : limits) (n sampled : Z) (w : W)
  : W * limits * outcome * list call :=
  let b := backed w in
  let lm := if lm_peak lm <? b                                                     (* :83-94 *)
            then Limits (lm_soft lm) (lm_hard lm) (lm_soft_hits lm) (lm_hard_hits lm) (lm_soft_ok lm) (lm_hard_ok lm) b (sampled + n * cf_page cf)
            else lm in
  if lm_soft lm =? no_limit then (w, lm, Returns, [])                              (* :100-103 *)
  else if b <=? lm_soft lm then (w, lm, Returns, [])                               (* :104-107 *)
  else
    let lm := Limits (lm_soft lm) (lm_hard lm) (lm_soft_hits lm + 1)               (* :109-110 *)
                (if lm_hard lm <? b then lm_hard_hits lm + 1 else lm_hard_hits lm) (lm_soft_ok lm) (lm_hard_ok lm) (lm_peak lm) (lm_peak_sampled lm) in
    let '(w, ok, log) := shrink_by rel brk cf false (pages_ceil cf (b - lm_soft lm)) w in   (* :112-117 *)
    if ok then
      (w, Limits (lm_soft lm) (lm_hard lm) (lm_soft_hits lm) (lm_hard_hits lm) (lm_soft_ok lm + 1) (lm_hard_ok lm) (lm_peak lm) (lm_peak_sampled lm), Returns, log)
    else if lm_hard lm <? no_limit then                                            (* :120-146 *)
      let b := backed w in
      if b <=? lm_hard lm then (w, lm, Returns, log)
      else
        let '(w, ok, log') := shrink_by rel brk cf true (pages_ceil cf (b - lm_hard lm)) w in
        if ok then
          (w, Limits (lm_soft lm) (lm_hard lm) (lm_soft_hits lm) (lm_hard_hits lm) (lm_soft_ok lm) (lm_hard_ok lm + 1) (lm_peak lm) (lm_peak_sampled lm), Returns, log ++ log')
        else
          (w, Limits (lm_soft lm) no_limit (lm_soft_hits lm) (lm_hard_hits lm) (lm_soft_ok lm) (lm_hard_ok lm) (lm_peak lm) (lm_peak_sampled lm), Aborts, log ++ log')
    else (w, lm, Returns, log).                                                    (* :148-153 *)

(** set_limit, page_allocator.h:436-445, up to the call of ShrinkToUsageLimit. *)
Definition set_limit (lm : limits) (limit : Z) (hard : bool) : limits :=
  let soft := if hard then lm_soft lm else limit in
  let hardl := if hard then limit else lm_hard lm in
  Limits (if hardl <? soft then hardl else soft) hardl (lm_soft_hits lm) (lm_hard_hits lm) (lm_soft_ok lm) (lm_hard_ok lm) (lm_peak lm) (lm_peak_sampled lm).
