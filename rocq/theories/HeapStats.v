(** The statistics the allocator reports (global_stats.cc, MallocExtension::GetProperties, mallinfo), read from the state of the
    whole allocator (Heap.v) when nothing moves. *)
From Coq Require Import Permutation.
From Verif Require HeapCaches Hpaa SysAlloc HeapPages Slab SlabRseq TransferCache.
From Verif Require Import Base SizeMap FrontApi CentralFreeList CFLProps Heap.

(** The tags' page heaps (page_allocator.h:244-264 has one for each tag in use but the tag of metadata; a page heap that is not
    there is one that never asks the system for memory: all its numbers are 0). *)
Definition all_tags : list Z := [tag_sampled; tag_sampled_p1; tag_cold; tag_metadata; tag_normal_p0; tag_normal_p1].
Definition all_classes (p : hpar) : list Z := zseq 0 (Z.to_nat (num_classes (p_c p))).

(** The numbers of bytes that ExtractStats collects (global_stats.h:35-64 TCMallocStats).  [st_meta], [st_unalloc], [st_unavail],
    [st_nonres]: metadata_bytes and the arena's numbers, which are about the allocator's own memory and not modelled here: any
    numbers. *)
Record stats := Stats {
  st_thread : Z; st_central : Z; st_transfer : Z; st_percpu : Z; st_sharded : Z;
  st_system : Z; st_free : Z; st_unmapped : Z;
  st_meta : Z; st_unalloc : Z; st_unavail : Z; st_nonres : Z }.

(** central_freelist.h:838-844 OverheadBytes, central_freelist.h:200 length, for a class whose size may be 0. *)
Definition central_length (h : heap) (k : Z) : Z := cfl_length (y_f (h_cl h k)).
Definition central_overhead (p : hpar) (h : heap) (k : Z) : Z :=
  if csize p k =? 0 then 0 else overhead_bytes (p_c p) (csize p k) (cpages p k) (y_f (h_cl h k)).

(** transfer_cache.h:442-444 and transfer_cache_internals.h:246-248 tc_length: the first of a class's caches here is the one
    that all CPUs share, the others are the sharded ones, transfer_cache.h:182-190 TotalObjectsOfClass. *)
Definition tc_length (h : heap) (k : Z) : Z :=
  match h_tc h k with x :: _ => TransferCache.t_used (fst x) | [] => 0 end.
Definition sharded_length (h : heap) (k : Z) : Z := zsum (map (fun x => TransferCache.t_used (fst x)) (tl (h_tc h k))).
(** transfer_cache.h:167-180 TotalBytes (the sums in another order). *)
Definition sharded_bytes (p : hpar) (h : heap) : Z :=
  zsum (map (fun k => if csize p k <=? 0 then 0 else sharded_length h k * csize p k) (all_classes p)).

(** cpu_cache.h:2169-2181 UsedBytes; cpu_cache.h:2195-2201 TotalUsedBytes; cpu_cache.h:2204-2217 TotalObjectsOfClass. *)
Definition cpu_length (s : SlabRseq.rst) (c k : Z) : Z :=
  Slab.slab_length (SlabRseq.begs s (SlabRseq.cur s)) (SlabRseq.regs s (SlabRseq.cur s) c) k.
Definition used_bytes (p : hpar) (s : SlabRseq.rst) (c : Z) : Z :=
  if SlabRseq.populated s c
  then zsum (map (fun k => csize p k * cpu_length s c k) (zseq 1 (Z.to_nat (num_classes (p_c p) - 1)))) else 0.
Definition total_used_bytes (p : hpar) (s : SlabRseq.rst) : Z := zsum (map (used_bytes p s) (zseq 0 (Z.to_nat (p_ncpu p)))).
Definition cpu_objects (p : hpar) (s : SlabRseq.rst) (k : Z) : Z :=
  if 0 <? k then zsum (map (fun c => if SlabRseq.populated s c then cpu_length s c k else 0) (zseq 0 (Z.to_nat (p_ncpu p)))) else 0.

(** page_allocator.h:300-313 stats: the sums of the page heaps' numbers (huge_page_aware_allocator.h, Hpaa.v), in bytes. *)
Definition page_stats (p : hpar) (h : heap) (t : Z) : Z * Z * Z :=
  Hpaa.hp_stats (HeapPages.q_P (p_q p)) (HeapPages.q_K (p_q p)) (HeapPages.b_hp (h_back h) t).
Definition page_sum (p : hpar) (h : heap) (f : Z * Z * Z -> Z) : Z := zsum (map (fun t => f (page_stats p h t) * pg p) all_tags).

(** global_stats.cc:90-190 ExtractStats.  No per-thread caches here (ThreadCache.v has them on their own): the CPUs' caches are
    in use. *)
Definition extract (p : hpar) (h : heap) (meta unalloc unavail nonres : Z) : stats :=
  Stats 0
    (zsum (map (fun k => csize p k * central_length h k + central_overhead p h k) (all_classes p)))
    (zsum (map (fun k => csize p k * tc_length h k) (all_classes p)))
    (total_used_bytes p (h_slab h)) (sharded_bytes p h)
    (page_sum p h (fun x => fst (fst x))) (page_sum p h (fun x => snd (fst x))) (page_sum p h snd)
    meta unalloc unavail nonres.
(** class_count, global_stats.cc:112-119. *)
Definition class_count (p : hpar) (h : heap) (k : Z) : Z :=
  central_length h k + tc_length h k + sharded_length h k + cpu_objects p (h_slab h) k.

(** global_stats.cc:199-250. *)
Definition stat_sub (a b : Z) : Z := if b <=? a then a - b else 0.
Definition in_use_by_app (s : stats) : Z :=
  stat_sub (st_system s)
    (st_thread s + st_central s + st_transfer s + st_percpu s + st_sharded s + st_free s + st_unmapped s).
Definition virtual_memory_used (s : stats) : Z := st_system s + st_meta s + st_unalloc s + st_unavail s + st_nonres s.
Definition unmapped_bytes (s : stats) : Z := st_unmapped s + st_nonres s.
Definition physical_memory_used (s : stats) : Z := stat_sub (virtual_memory_used s) (unmapped_bytes s).
Definition required_bytes (s : stats) : Z := stat_sub (physical_memory_used s) (st_free s).
Definition external_bytes (s : stats) : Z :=
  st_free s + st_central s + st_percpu s + st_sharded s + st_transfer s + st_thread s + st_meta s + st_unavail s + st_unalloc s.
Definition heap_size_bytes (s : stats) : Z := stat_sub (st_system s) (st_unmapped s).
Definition local_bytes (s : stats) : Z := st_thread s + st_percpu s + st_sharded s.
Definition slack_bytes (s : stats) : Z := st_free s + st_unmapped s.
