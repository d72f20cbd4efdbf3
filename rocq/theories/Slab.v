(** Model of one CPU's region of tcmalloc/internal/percpu_tcmalloc.h: the layout of the
    size classes in the region, and the operations on it as they act when they are not
    interrupted (SlabRseq.v models the interruptions).

    The region is an array of words.  Its first NumClasses 4-byte headers are kept apart
    from the words; [region_words_ok] in SlabProps.v shows that no operation touches a
    word below them or beyond the region. *)
From Verif Require Import Base.

Definition wrap16 (x : Z) : Z := x mod 2 ^ 16.

(** internal/percpu_tcmalloc.h (struct Header): internal/percpu_tcmalloc.h:361-366. *)
Record region := Region { h_cur : Z -> Z; h_end : Z -> Z; words : Z -> Z }.

(** The number of size classes, the largest capacity of each, and log2 of the size of the
    region in bytes. *)
Record scfg := SCfg { s_classes : Z; s_max : Z -> Z; s_shift : Z; s_base : Z }.

(** sizeof(Header), sizeof(void* ). *)
Definition header_bytes : Z := 4.
Definition word_bytes : Z := 8.

(** internal/percpu_tcmalloc.h:1119-1141: the offsets at which the classes begin.
    None: TC_CHECK or TC_BUG. *)
Fixpoint init_slabs_loop (c : scfg) (n : nat) (cl consumed : Z) (prev_empty : bool) (begins : Z -> Z) : option (Z -> Z) :=
  match n with
  | O => Some begins
  | S n =>
      let cap := s_max c cl in
      if negb (wrap16 cap =? cap) then None
      else
        let consumed := if prev_empty then consumed else consumed + word_bytes in
        let begins := upd begins cl (wrap16 (consumed / word_bytes)) in
        let consumed := consumed + cap * word_bytes in
        if 2 ^ s_shift c <? consumed then None
        else init_slabs_loop c n (cl + 1) consumed (cap =? 0) begins
  end.
Definition header_area (c : scfg) : Z := Z.land (s_classes c * header_bytes + word_bytes - 1) (Z.lnot (word_bytes - 1)).
Definition init_slabs (c : scfg) : option (Z -> Z) :=
  init_slabs_loop c (Z.to_nat (s_classes c - 1)) 1 (header_area c) false (fun _ => 0).

(** internal/percpu_tcmalloc.h:1152-1194: [elems] is an offset in words.  [s_base] is the address
    of the region, a multiple of its size. *)
Fixpoint init_cpu_loop (c : scfg) (n : nat) (cl elems : Z) (prev_empty : bool) (r : region) : option region :=
  match n with
  | O => Some r
  | S n =>
      let cap := s_max c cl in
      if negb (wrap16 cap =? cap) then None
      else
        let r := if prev_empty then r
                 else Region (h_cur r) (h_end r) (upd (words r) elems (Z.lor (s_base c + elems * word_bytes) 1)) in
        let elems := if prev_empty then elems else elems + 1 in
        let r := Region (upd (h_cur r) cl (wrap16 elems)) (upd (h_end r) cl (wrap16 elems)) (words r) in
        let elems := elems + cap in
        if 2 ^ s_shift c <? elems * word_bytes then None
        else init_cpu_loop c n (cl + 1) elems (cap =? 0) r
  end.
Definition init_cpu (c : scfg) (r : region) : option region :=
  if 2 ^ 16 * word_bytes <? 2 ^ s_shift c then None
  else init_cpu_loop c (Z.to_nat (s_classes c - 1)) 1 (header_area c / word_bytes) false r.

(** The low bit marks the word before the first object of a class, internal/percpu_tcmalloc.h:379. *)
Definition marked (w : Z) : bool := Z.odd w.

(** Push, internal/percpu_tcmalloc.h:655-712. *)
Definition push (r : region) (cl item : Z) : region * bool :=
  let current := h_cur r cl in
  if h_end r cl <=? current then (r, false)
  else (Region (upd (h_cur r) cl (wrap16 (current + 1))) (h_end r) (upd (words r) current item), true).

(** Pop, internal/percpu_tcmalloc.h:829-904; None: the class is empty. *)
Definition pop (r : region) (cl : Z) : region * option Z :=
  let current := h_cur r cl in
  let result := words r (current - 1) in
  if marked result then (r, None)
  else (Region (upd (h_cur r) cl (wrap16 (current - 1))) (h_end r) (words r), Some result).

(** TcmallocSlab_Internal_PushBatch, internal/percpu_rseq_x86_64.S:240-270: the loop copies from the end of
    the batch; the items not pushed remain at its start. *)
Fixpoint push_loop (n : nat) (w : Z -> Z) (r9 : Z) (batch : list Z) (r11 : Z) : (Z -> Z) * Z * Z :=
  match n with
  | O => (w, r9, r11)
  | S n => let r11 := r11 - 1 in push_loop n (upd w r9 (nth (Z.to_nat r11) batch 0)) (r9 + 1) batch r11
  end.
Definition push_batch (r : region) (cl : Z) (batch : list Z) : region * Z :=
  let len := Z.of_nat (length batch) in
  let r9 := h_cur r cl in
  let r10 := h_end r cl in
  if r10 <=? r9 then (r, 0)
  else
    let room := Z.min len (r10 - r9) in
    let '(w, r9, r11) := push_loop (Z.to_nat room) (words r) r9 batch len in
    (Region (upd (h_cur r) cl (wrap16 r9)) (h_end r) w, len - r11).

(** TcmallocSlab_Internal_PopBatch, internal/percpu_rseq_x86_64.S:301-326. *)
Fixpoint pop_loop (n : nat) (w : Z -> Z) (r9 : Z) : list Z * Z :=
  match n with
  | O => ([], r9)
  | S n => let r9 := r9 - 1 in let (l, e) := pop_loop n w r9 in (w r9 :: l, e)
  end.
Definition pop_batch (begins : Z -> Z) (r : region) (cl len : Z) : region * list Z :=
  let r9 := h_cur r cl in
  let r10 := begins cl in
  if r9 <=? r10 then (r, [])
  else
    let (l, r9) := pop_loop (Z.to_nat (Z.min len (r9 - r10))) (words r) r9 in
    (Region (upd (h_cur r) cl (wrap16 r9)) (h_end r) (words r), l).

Definition set_end (r : region) (cl e : Z) : region := Region (h_cur r) (upd (h_end r) cl e) (words r).

(** internal/percpu_tcmalloc.h:1005-1020. *)
Definition grow (begins : Z -> Z) (r : region) (cl len max_cap : Z) : region * Z :=
  let have := max_cap - (h_end r cl - begins cl) in
  if have <=? 0 then (r, 0)
  else let n := Z.min (wrap16 len) (wrap16 have) in (set_end r cl (wrap16 (h_end r cl + n)), n).

(** internal/percpu_tcmalloc.h:1441-1454. *)
Definition grow_other (begins : Z -> Z) (r : region) (cl len max_cap : Z) : region * Z :=
  let n := Z.min (wrap16 len) (wrap16 (wrap64 (max_cap - (h_end r cl - begins cl)))) in
  (set_end r cl (wrap16 (h_end r cl + n)), n).

Definition read_words (w : Z -> Z) (i n : Z) : list Z := map w (zseq i (Z.to_nat n)).

(** internal/percpu_tcmalloc.h:1457-1484: the objects given to the handler and the decrement. *)
Definition shrink_other (begins : Z -> Z) (r : region) (cl len : Z) : region * list Z * Z :=
  let unused := wrap16 (h_end r cl - h_cur r cl) in
  let begin := begins cl in
  let pop := if (unused <? len) && negb (h_cur r cl =? begin)
             then Z.min (wrap16 (len - unused)) (wrap16 (h_cur r cl - begin)) else 0 in
  let batch := read_words (words r) (h_cur r cl - pop) pop in
  let cur := wrap16 (h_cur r cl - pop) in
  let to_shrink := Z.min (wrap16 len) (wrap16 (h_end r cl - cur)) in
  (Region (upd (h_cur r) cl cur) (upd (h_end r) cl (wrap16 (h_end r cl - to_shrink))) (words r), batch, to_shrink).

(** internal/percpu_tcmalloc.h:1256-1277: the calls of the handler: class, objects, capacity. *)
Fixpoint drain_loop (begins : Z -> Z) (n : nat) (cl : Z) (r : region) : region * list (Z * list Z * Z) :=
  match n with
  | O => (r, [])
  | S n =>
      let begin := begins cl in
      if h_cur r cl =? 0 then drain_loop begins n (cl + 1) r
      else
        let item := (cl, read_words (words r) begin (h_cur r cl - begin), h_end r cl - begin) in
        let (r, l) := drain_loop begins n (cl + 1) (Region (upd (h_cur r) cl begin) (upd (h_end r) cl begin) (words r)) in
        (r, item :: l)
  end.
Definition drain (c : scfg) (begins : Z -> Z) (r : region) : region * list (Z * list Z * Z) :=
  drain_loop begins (Z.to_nat (s_classes c - 1)) 1 r.

(** internal/percpu_tcmalloc.h:442-450, internal/percpu_tcmalloc.h:453-459. *)
Definition slab_length (begins : Z -> Z) (r : region) (cl : Z) : Z := Z.max 0 (h_cur r cl - begins cl).
Definition slab_capacity (begins : Z -> Z) (r : region) (cl : Z) : Z := Z.max 0 (h_end r cl - begins cl).

(** internal/percpu_tcmalloc.h:1280-1290. *)
Definition is_drained (c : scfg) (begins : Z -> Z) (r : region) : bool :=
  forallb (fun cl => (h_end r cl =? 0) || (h_end r cl =? begins cl)) (zseq 1 (Z.to_nat (s_classes c - 1))).

(** ** Operations and their results *)
Inductive sop :=
| OPush (cl item : Z) | OPop (cl : Z) | OPushBatch (cl : Z) (batch : list Z) | OPopBatch (cl len : Z)
| OGrow (cl len : Z) | OGrowOther (cl len : Z) | OShrink (cl len : Z) | ODrain | OLength (cl : Z) | OCapacity (cl : Z) | OIsDrained.
Inductive sres :=
| RBool (b : bool) | RObj (x : option Z) | RNum (n : Z) | RObjs (l : list Z) | RShrunk (l : list Z) (n : Z) | RDrained (l : list (Z * list Z * Z)).

(** Grow is called with the maximum capacity of the class as its bound. *)
Definition sop_step (c : scfg) (begins : Z -> Z) (r : region) (o : sop) : region * sres :=
  match o with
  | OPush cl item => let (r, b) := push r cl item in (r, RBool b)
  | OPop cl => let (r, x) := pop r cl in (r, RObj x)
  | OPushBatch cl batch => let (r, n) := push_batch r cl batch in (r, RNum n)
  | OPopBatch cl len => let (r, l) := pop_batch begins r cl len in (r, RObjs l)
  | OGrow cl len => let (r, n) := grow begins r cl len (s_max c cl) in (r, RNum n)
  | OGrowOther cl len => let (r, n) := grow_other begins r cl len (s_max c cl) in (r, RNum n)
  | OShrink cl len => let '(r, l, n) := shrink_other begins r cl len in (r, RShrunk l n)
  | ODrain => let (r, l) := drain c begins r in (r, RDrained l)
  | OLength cl => (r, RNum (slab_length begins r cl))
  | OCapacity cl => (r, RNum (slab_capacity begins r cl))
  | OIsDrained => (r, RBool (is_drained c begins r))
  end.
