(** Model of tcmalloc/arena.h, arena.cc and metadata_object_allocator.h: where
    tcmalloc's own data structures live.  Both keep their free blocks in lists
    threaded through the free memory itself, so the model has a memory of 8-byte
    words, indexed by the (8-aligned) address of the word. *)
From Verif Require Import Base.

(** arena.h:102-104, [sizeof(Span)] and kPageSize are parameters;
    sizeof(Block) is 16 and alignof(Block) 8 (arena.h:90-93). *)
Record acfg := ACfg { a_span_size : Z; a_page_size : Z }.
Definition k_alloc_increment : Z := 128 * 1024.   (* arena.h:102 *)
Definition k_max_freelist_blocks : Z := 100.      (* arena.h:104 *)
Definition sizeof_block : Z := 16.
Definition alignof_block : Z := 8.

(** arena.h:107-128. *)
Record arena := Arena {
  free_area : Z;
  free_avail : Z;
  freelist : Z;             (* address of the first block, 0 = null *)
  bytes_allocated : Z;
  bytes_unavailable : Z;
  bytes_nonresident : Z;
  fl_unallocated : Z;
  blocks : Z;               (* uint16_t *)
  fl_blocks : Z;            (* uint8_t *)
  amem : Z -> Z             (* the words of memory *)
}.
Definition arena0 (m : Z -> Z) : arena := Arena 0 0 0 0 0 0 0 0 0 m.

Definition wrap8 (x : Z) : Z := x mod 256.
Definition wrap16 (x : Z) : Z := x mod 65536.

(** Block::next and Block::size of the block at [b]. *)
Definition block_next (m : Z -> Z) (b : Z) : Z := m b.
Definition block_size (m : Z -> Z) (b : Z) : Z := m (b + 8).

(** arena.cc:38-41-41. *)
Definition alignment_bytes (area align : Z) : Z :=
  let misalignment := area mod align in
  if misalignment =? 0 then 0 else align - misalignment.

(** arena.cc:44-64-64. *)
Definition stash (c : acfg) (s : arena) : arena :=
  let ab := alignment_bytes (free_area s) alignof_block in
  if (fl_blocks s <? k_max_freelist_blocks)
     && (wrap64 (ab + Z.max (a_span_size c) sizeof_block) <=? free_avail s)
  then
    let b := wrap64 (free_area s + ab) in
    let sz := wrap64 (free_avail s - ab) in
    Arena 0 0 b
      (bytes_allocated s) (wrap64 (bytes_unavailable s + ab)) (bytes_nonresident s)
      (wrap64 (fl_unallocated s + sz)) (blocks s) (wrap8 (fl_blocks s + 1))
      (upd (upd (amem s) b (freelist s)) (b + 8) sz)
  else
    Arena 0 0 (freelist s)
      (bytes_allocated s) (wrap64 (bytes_unavailable s + free_avail s)) (bytes_nonresident s)
      (fl_unallocated s) (blocks s) (fl_blocks s) (amem s).

(** The search loop of arena.cc:66-90-90: the
    block found and its predecessor; [Some None]: nullptr.  [fuel] bounds the walk;
    running out of it is [None] and is proved not to happen. *)
Fixpoint pop_loop (fuel : nat) (m : Z -> Z) (bytes align prev cur : Z) : option (option (Z * Z)) :=
  if cur =? 0 then Some None
  else match fuel with
  | O => None
  | S fuel =>
    if block_size m cur <? wrap64 (alignment_bytes cur align + bytes)
    then pop_loop fuel m bytes align cur (block_next m cur)
    else Some (Some (prev, cur))
  end.
Definition try_pop (s : arena) (bytes align : Z) : option (Z * arena) :=
  match pop_loop 256 (amem s) bytes align 0 (freelist s) with
  | None => None
  | Some None => Some (0, s)
  | Some (Some (prev, cur)) =>
    let next := block_next (amem s) cur in
    Some (cur, Arena (free_area s) (free_avail s) (if prev =? 0 then next else freelist s)
      (bytes_allocated s) (bytes_unavailable s) (bytes_nonresident s)
      (wrap64 (fl_unallocated s - block_size (amem s) cur)) (blocks s) (wrap8 (fl_blocks s - 1))
      (if prev =? 0 then amem s else upd (amem s) prev next))
  end.

(** arena.cc:92-125-125.  [reply] is what the system allocator
    answers if it is asked; the flag says whether it was.  A null reply ends the
    program ([None]).  Back() only touches pages and is left out. *)
Definition alloc_slow (c : acfg) (s : arena) (bytes align : Z) (reply : option (Z * Z)) : option (bool * arena) :=
  let s := stash c s in
  let? (b, s) := try_pop s bytes align in
  if negb (b =? 0) then
    Some (false, Arena b (block_size (amem s) b) (freelist s)
      (bytes_allocated s) (bytes_unavailable s) (bytes_nonresident s) (fl_unallocated s) (blocks s) (fl_blocks s) (amem s))
  else
    let? (ptr, actual) := reply in
    Some (true, Arena ptr actual (freelist s)
      (bytes_allocated s) (bytes_unavailable s) (bytes_nonresident s) (fl_unallocated s)
      (wrap16 (blocks s + 1)) (fl_blocks s) (amem s)).
(** What AllocSlow asks the system for: size and alignment. *)
Definition ask_size (bytes : Z) : Z := if k_alloc_increment <? bytes then bytes else k_alloc_increment.
Definition ask_align (c : acfg) (align : Z) : Z := Z.max (a_page_size c) align.

(** arena.cc:127-152-152. *)
Definition ar_alloc (c : acfg) (s : arena) (bytes align : Z) (reply : option (Z * Z)) : option (Z * bool * arena) :=
  let ab := alignment_bytes (free_area s) align in
  let? (used, s) :=
    (if free_avail s <? wrap64 (ab + bytes) then alloc_slow c s bytes align reply else Some (false, s)) in
  let ab := alignment_bytes (free_area s) align in
  let area := wrap64 (free_area s + ab) in
  let avail := wrap64 (free_avail s - ab) in
  let alloc := wrap64 (bytes_allocated s + ab) in
  Some (area, used,
    Arena (wrap64 (area + bytes)) (wrap64 (avail - bytes)) (freelist s)
      (wrap64 (alloc + bytes)) (bytes_unavailable s) (bytes_nonresident s) (fl_unallocated s)
      (blocks s) (fl_blocks s) (amem s)).

(** arena.h:67-73-73. *)
Definition ar_update (s : arena) (allocated nonresident : Z) : arena :=
  Arena (free_area s) (free_avail s) (freelist s)
    (wrap64 (bytes_allocated s + allocated)) (bytes_unavailable s) (wrap64 (bytes_nonresident s + nonresident))
    (fl_unallocated s) (blocks s) (fl_blocks s) (amem s).

(** arena.h:81. *)
Definition bytes_unallocated (s : arena) : Z := wrap64 (free_avail s + fl_unallocated s).

(** A store by whoever uses the memory. *)
Definition ar_write (s : arena) (w v : Z) : arena :=
  Arena (free_area s) (free_avail s) (freelist s) (bytes_allocated s) (bytes_unavailable s) (bytes_nonresident s)
    (fl_unallocated s) (blocks s) (fl_blocks s) (upd (amem s) w v).

(** metadata_object_allocator.h:124-133. *)
Record moa := Moa { mo_free : Z; mo_in_use : Z; mo_total : Z }.
Definition moa0 : moa := Moa 0 0 0.

(** metadata_object_allocator.h:86-109-109. *)
Definition mo_new (c : acfg) (s : arena) (o : moa) (size align : Z) (reply : option (Z * Z))
  : option (Z * bool * arena * moa) :=
  let result := mo_free o in
  let o := Moa (mo_free o) (wrap64 (mo_in_use o + 1)) (mo_total o) in
  if result =? 0 then
    let o := Moa (mo_free o) (mo_in_use o) (wrap64 (mo_total o + 1)) in
    let? (p, used, s) := ar_alloc c s size align reply in
    Some (p, used, s, o)
  else Some (result, false, s, Moa (amem s (mo_free o)) (mo_in_use o) (mo_total o)).

(** metadata_object_allocator.h:111-122-122. *)
Definition mo_delete (s : arena) (o : moa) (p : Z) : arena * moa :=
  (ar_write s p (mo_free o), Moa p (wrap64 (mo_in_use o - 1)) (mo_total o)).
