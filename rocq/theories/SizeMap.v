(** Model of the size-class map: tcmalloc/sizemap.h and tcmalloc/sizemap.cc. *)
From Verif Require Import Base.

(** Build configuration: tcmalloc/common.h:121-190.  [sec_parts] and
    [numa_parts] are kSecurityPartitions and kNumaPartitions. *)
Record cfg := Cfg {
  page_shift : Z;    (* kPageShift *)
  num_base   : Z;    (* kNumBaseClasses *)
  expanded   : bool; (* kHasExpandedClasses *)
  max_size   : Z;    (* kMaxSize *)
  sec_parts  : Z;
  numa_parts : Z
}.

(** common.h:121-163, one line per TCMALLOC_PAGE_SHIFT. *)
Definition cfg12 (sec numa : Z) := Cfg 12 46 false 8192 sec numa.
Definition cfg13 (sec numa : Z) := Cfg 13 86 true 262144 sec numa.
Definition cfg15 (sec numa : Z) := Cfg 15 78 true 262144 sec numa.
Definition cfg18 (sec numa : Z) := Cfg 18 89 true 262144 sec numa.

(** common.h:170-182: at most two normal partitions, either NUMA or security. *)
Definition cfg_ok (c : cfg) : Prop :=
  exists sec numa,
    (sec = 1 /\ numa = 1 \/ sec = 1 /\ numa = 2 \/ sec = 2 /\ numa = 1) /\
    (c = cfg12 sec numa \/ c = cfg13 sec numa \/ c = cfg15 sec numa \/ c = cfg18 sec numa).

Definition page_size (c : cfg) : Z := 2 ^ page_shift c.         (* common.h:210 *)
Definition normal_parts (c : cfg) : Z := numa_parts c * sec_parts c.  (* common.h:179-180 *)
Definition expanded_start (c : cfg) : Z := num_base c * normal_parts c. (* common.h:186-187 *)
Definition num_classes (c : cfg) : Z :=
  expanded_start c + (if expanded c then num_base c else 0).    (* common.h:188-189 *)

Definition k_alignment : Z := 8.           (* common.h:213 kAlignment *)
Definition k_large_size : Z := 1024.       (* sizemap.h:59 *)
Definition k_large_size_alignment : Z := 128. (* sizemap.h:60 *)
Definition k_max_objects_to_move : Z := 128.  (* common.h:208 *)
Definition k_bitmap_size : Z := 192.       (* span.h:281,323: 8 * sizeof(uint16_t) * 12 *)
Definition k_large_span_length : Z := 63.  (* span.h:238-239 *)
Definition k_few_objects : Z := 16.        (* central_freelist.h:132 *)
Definition k_huge_page_shift : Z := 21.    (* internal/config.h *)

(** internal/is_aligned_to.h:29-33. *)
Definition is_aligned_to (v align : Z) : bool := Z.land v (align - 1) =? 0.

(** sizemap.h:85-86 kClassArraySize. *)
Definition class_array_size (c : cfg) : Z :=
  Z.shiftr (max_size c + 127 + 120 * 128) 7 + 1.
Definition hot_registers (c : cfg) : Z := 2 * sec_parts c.   (* sizemap.h:111 *)
Definition cold_stride (c : cfg) : Z := hot_registers c.     (* sizemap.h:112 *)

(** sizemap.h:137-147 ClassIndexMaybe. *)
Definition class_index (c : cfg) (s : Z) : option Z :=
  if s <=? k_large_size then Some (Z.shiftr (s + 7) 3)
  else if s <=? max_size c then Some (Z.shiftr (s + 127 + 120 * 128) 7)
  else None.

(** internal/size_class_info.h:31-47 SizeClassInfo. *)
Record sci := Sci { sz : Z; bytes : Z; ntm : Z }.
Definition sci0 := Sci 0 0 0.
Definition tnth (t : list sci) (k : Z) : sci := nth (Z.to_nat k) t sci0.
Definition tlen (t : list sci) : Z := Z.of_nat (length t).

(** span.h:734-741 Span::UseBitmapForSize. *)
Definition use_bitmap_for_size (c : cfg) (size : Z) : bool :=
  page_size c / k_bitmap_size <=? size.

(** span.h:724-732 Span::IsValidSizeClass. *)
Definition span_valid_class (c : cfg) (size pages : Z) : bool :=
  if k_large_span_length <? pages then false
  else if use_bitmap_for_size c size
  then (pages * page_size c) / size <=? k_bitmap_size
  else pages =? 1.

(** huge_page_aware_allocator.h:1289-1298. kSmallAllocPages is half a hugepage
    (line 289). *)
Definition small_alloc_pages (c : cfg) : Z := 2 ^ (k_huge_page_shift - page_shift c) / 2.
Definition hpaa_valid_class (c : cfg) (size pages : Z) : bool :=
  negb ((k_few_objects <? (pages * page_size c) / size) && (small_alloc_pages c <? pages)).

(** sizemap.cc:99-151 SizeMap::IsValidSizeClass. *)
Definition is_valid_class (c : cfg) (size pages ntm : Z) : bool :=
  if size =? 0 then false
  else if max_size c <? size then false
  else
    let alignment := if k_large_size <? size then k_large_size_alignment else k_alignment in
    if negb (is_aligned_to size alignment) then false
    else if pages =? 0 then false
    else if 32 <? pages then false
    else if (pages * page_size c) / size <? 1 then false
    else if negb (span_valid_class c size pages) then false
    else if negb (hpaa_valid_class c size pages) then false
    else if ntm <? 2 then false
    else if k_max_objects_to_move <? ntm then false
    else true.

(** pages.h BytesToLengthFloor. *)
Definition bytes_to_length_floor (c : cfg) (b : Z) : Z := Z.shiftr b (page_shift c).

(** sizemap.cc:207-224, the body of the loop of ValidSizeClasses. *)
Definition valid_entry (c : cfg) (prev cur : sci) : bool :=
  let pages := bytes_to_length_floor c (bytes cur) in
  if negb (pages * page_size c =? bytes cur) then false
  else if sz cur <=? sz prev then false
  else is_valid_class c (sz cur) pages (ntm cur).

(** The loop [for (c = 1; c < num_classes; c++)] over the first [n] entries. *)
Fixpoint valid_entries (c : cfg) (n : nat) (prev : sci) (t : list sci) : bool :=
  match n, t with
  | S n, cur :: t => valid_entry c prev cur && valid_entries c n cur t
  | _, _ => true
  end.

(** sizemap.cc:193-235 ValidSizeClasses. *)
Definition valid_size_classes (c : cfg) (t : list sci) : bool :=
  match t with
  | [] => false
  | h :: rest =>
    let n := if expanded c && (num_base c <? tlen t) then num_base c else tlen t in
    if negb (sz h =? 0) || negb (bytes h =? 0) || negb (ntm h =? 0) then false
    else valid_entries c (Z.to_nat (n - 1)) h rest
         && (sz (tnth t (n - 1)) =? max_size c)
  end.

(** The initialised map: sizemap.h:125-159. *)
Record sizemap := SizeMap {
  class_to_size : Z -> Z;
  class_to_pages : Z -> Z;
  objects_to_move : Z -> Z;
  class_array : Z -> Z
}.

(** sizemap.cc:159-176: the three arrays after the copy loop and the zero fill
    (written as the function the two loops compute). *)
Definition base_array (t : list sci) (f : sci -> Z) : Z -> Z :=
  fun k => if (1 <=? k) && (k <? tlen t) then f (tnth t k) else 0.

(** sizemap.cc:178-186: copies of the base classes into the upper registers,
    for i = 1 .. kNumClasses / kNumBaseClasses - 1. *)
Fixpoint copy_registers (nb : Z) (n : nat) (i : Z) (f : Z -> Z) : Z -> Z :=
  match n with
  | O => f
  | S n => copy_registers nb n (i + 1) (copy_range f 0 (nb * i) nb)
  end.

(** sizemap.cc:153-189 SetSizeClasses.  [None] stands for the out-of-bounds
    array write that happens if the table has more entries than kNumClasses;
    [Some None] for "return false". *)
Definition set_size_classes (c : cfg) (t : list sci)
  : option (option ((Z -> Z) * (Z -> Z) * (Z -> Z))) :=
  if negb (valid_size_classes c t) then Some None
  else if num_classes c <? tlen t then None
  else
    let regs := Z.to_nat (num_classes c / num_base c - 1) in
    let mk f := copy_registers (num_base c) regs 1 (base_array t f) in
    Some (Some (mk sz,
                mk (fun e => bytes_to_length_floor c (bytes e)),
                mk ntm)).

(** sizemap.cc:252-255: [for (s = next; s <= max; s += kAlignment)
    class_array_[ClassIndex(s) + off] = c] for each offset in [offs].
    [None]: the TC_CHECK of ClassIndex (sizemap.h:149-153) fails. *)
Definition write_class (offs : list Z) (i cl : Z) (a : Z -> Z) : Z -> Z :=
  fold_left (fun a off => upd a (i + off) cl) offs a.

Fixpoint fill_sizes (c : cfg) (offs : list Z) (n : nat) (s cl : Z) (a : Z -> Z)
  : option (Z -> Z) :=
  match n with
  | O => Some a
  | S n =>
    match class_index c s with
    | None => None
    | Some i => fill_sizes c offs n (s + k_alignment) cl (write_class offs i cl a)
    end
  end.

(** Number of iterations of that loop. *)
Definition fill_count (next mx : Z) : nat :=
  if next <=? mx then Z.to_nat ((mx - next) / k_alignment + 1) else O.

(** sizemap.cc:249-260 / 275-293 / 308-327: the loop over classes.  [skip0] is
    the [max_size_in_class == 0] branch, present only in the cold loop
    (lines 310-313). *)
Fixpoint fill_classes (c : cfg) (offs : list Z) (skip0 : bool) (cts : Z -> Z)
  (n : nat) (cl next : Z) (a : Z -> Z) : option (Z -> Z) :=
  match n with
  | O => Some a
  | S n =>
    let mx := cts cl in
    if skip0 && (mx =? 0)
    then fill_classes c offs skip0 cts n (cl + 1) (mx + k_alignment) a
    else
      match fill_sizes c offs (fill_count next mx) next cl a with
      | None => None
      | Some a =>
        let next := mx + k_alignment in
        if max_size c <? next then Some a
        else fill_classes c offs skip0 cts n (cl + 1) next a
      end
  end.

(** sizemap.cc:265-268. *)
Fixpoint copy_hot (k : Z) (n : nat) (i : Z) (a : Z -> Z) : Z -> Z :=
  match n with
  | O => a
  | S n => copy_hot k n (i + 1) (copy_range a 0 (k * i) k)
  end.

(** sizemap.cc:238-344 Init.  [part_active] is multiple_non_numa_partitions(),
    [part_full] is heap_partitioning_mode() == kFull. *)
Definition init_array (c : cfg) (part_active part_full : bool) (cts : Z -> Z)
  : option (Z -> Z) :=
  let k := class_array_size c in
  (* 248-260: hot New P0 *)
  let? a := fill_classes c [0] false cts (Z.to_nat (num_classes c - 1)) 1 0 (fun _ => 0) in
  (* 262-268 *)
  let a := copy_hot k (Z.to_nat (hot_registers c - 1)) 1 a in
  (* 270-294 *)
  let? a :=
    if (1 <? sec_parts c) && part_active then
      let offs := k * (sec_parts c + 1) :: k :: (if part_full then [] else [0]) in
      fill_classes c offs false cts
        (Z.to_nat (expanded_start c - (num_base c + 1))) (num_base c + 1) 0 a
    else Some a in
  (* 296-341 *)
  if expanded c then
    let a := copy_range a 0 (k * cold_stride c) k in
    (* the value of next_size carried into this loop is dead: the first class
       visited is a copy of class 0, whose size is 0 (line 310). *)
    let? a := fill_classes c [k * cold_stride c] true cts
                (Z.to_nat (num_classes c - expanded_start c)) (expanded_start c)
                (max_size c + k_alignment) a in
    if 1 <? sec_parts c then
      if part_full
      then Some (copy_range a k (k * (2 * sec_parts c + 1)) k)
      else Some (copy_range a (k * (2 * sec_parts c)) (k * (2 * sec_parts c + 1)) k)
    else Some a
  else Some a.

Definition init (c : cfg) (part_active part_full : bool) (t : list sci) : option sizemap :=
  match set_size_classes c t with
  | Some (Some (cts, ctp, otm)) =>
    let? a := init_array c part_active part_full cts in
    Some (SizeMap cts ctp otm a)
  | _ => None
  end.

(** tcmalloc_policy.h: the parts of a policy the lookup uses. *)
Record policy := Policy {
  align : Z;               (* policy.align() *)
  align_const : bool;      (* __builtin_constant_p(align) *)
  is_cold : bool;
  alloc_new : bool;        (* allocation_type() == AllocationType::New *)
  sec_partition : Z;       (* security_partition() *)
  numa_partition : Z       (* the NUMA partition; scaled_numa_partition() is it times kNumBaseClasses *)
}.

(** sizemap.h:267-271: [do ++size_class while (!IsAlignedTo(...))]; the bound
    is the array length: running past it would be an out-of-bounds read. *)
Fixpoint align_search (m : sizemap) (al : Z) (n : nat) (cl : Z) : option Z :=
  match n with
  | O => None
  | S n => if is_aligned_to (class_to_size m cl) al then Some cl
           else align_search m al n (cl + 1)
  end.

(** Outcome of GetSizeClass: not small, a class, or undefined behaviour. *)
Inductive lookup := NotSmall | Small (cl : Z) | LookupUB.

(** sizemap.h:210-274 GetSizeClass. *)
Definition get_size_class (c : cfg) (m : sizemap) (p : policy) (size : Z) : lookup :=
  if page_size c <? align p then NotSmall
  else match class_index c size with
  | None => NotSmall
  | Some idx =>
    let k := class_array_size c in
    let cl :=
      if expanded c && is_cold p
      then class_array m (idx + (sec_partition p + cold_stride c) * k)
      else
        let type_off := if alloc_new p then 0 else sec_parts c in
        class_array m (idx + (sec_partition p + type_off) * k)
        + numa_partition p * num_base c in
    if align_const p && (align p <=? k_alignment) then Small cl
    else match align_search m (align p) (Z.to_nat (num_classes c - cl)) cl with
         | Some cl => Small cl
         | None => LookupUB
         end
  end.

(** Policies that can be built for a configuration: tcmalloc_policy.h. Cold
    allocations are only requested through operator new (sizemap.h:229). *)
Definition policy_ok (c : cfg) (p : policy) : Prop :=
  is_pow2 (align p) /\
  0 <= sec_partition p < sec_parts c /\
  0 <= numa_partition p < numa_parts c /\
  (is_cold p = true -> alloc_new p = true).

(** sizemap.h:309-324 class_to_size_range. *)
Definition class_to_size_range (m : sizemap) (cl : Z) : Z * Z :=
  if cl =? 0 then (0, 0)
  else
    let mx := class_to_size m cl in
    let mn := class_to_size m (cl - 1) + 1 in
    (if mx <? mn then 0 else mn, mx).
