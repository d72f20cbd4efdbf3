(** Model of the free-object bookkeeping of a span: tcmalloc/span.h, span.cc.
    (The non-legacy configuration: TCMALLOC_INTERNAL_LEGACY_LOCKING undefined.) *)
From Verif Require Import Base SizeMap Bitmap.

Definition u16 (x : Z) : Z := x mod 65536.   (* ObjIdx / uint16_t arithmetic *)
Definition u32 (x : Z) : Z := x mod 2 ^ 32.

Definition k_list_end : Z := 65535.          (* span.h:268 *)
Definition k_cache_size : Z := 12.           (* span.h:281 *)
Definition k_scale : Z := 2 ^ 30.            (* span.h:53 *)

(** Memory of the span's objects: the 16-bit word stored at each (even) byte
    address. *)
Definition memory := Z -> Z.

(** The fields used while the span is owned by a central free list:
    span.h:294-297, span.h:318, span.h:373-388.  The cache and the bitmap are
    members of a union; a span uses one or the other depending on its size class. *)
Record span := MkSpan {
  first_page : Z;
  embed_count : Z;
  freelist : Z;
  allocated : Z;
  cache_size : Z;
  cache : Z -> Z;
  bitmap_ : words
}.

Definition span_start (c : cfg) (s : span) : Z := first_page s * page_size c.

(** span.cc:125-132 CalcReciprocal. *)
Definition calc_reciprocal (size : Z) : Z := k_scale / size.

(** span.h:592-597 OffsetToIdx. *)
Definition offset_to_idx (offset reciprocal : Z) : Z :=
  u16 (wrap64 (offset * reciprocal + k_scale / 2) / k_scale).

(** span.h:600-603 BitmapIdxToPtr. *)
Definition bitmap_idx_to_ptr (start idx size : Z) : Z := start + idx * size.

(** span.h:606-613 BitmapPtrToIdx. *)
Definition bitmap_ptr_to_idx (start ptr reciprocal : Z) : Z :=
  offset_to_idx (u32 (ptr - start)) reciprocal.

(** span.h:440-449 IdxToPtr; kAlignmentShift is 3. *)
Definition idx_to_ptr (start idx : Z) : Z := start + Z.shiftl idx 3.

(** span.h:451-465 PtrToIdx. *)
Definition ptr_to_idx (c : cfg) (ptr : Z) : Z :=
  u16 (Z.shiftr (Z.land ptr (page_size c - 1)) 3).

Definition max_embed (size : Z) : Z := size / 2 - 1.

(** span.h:743-773 BitmapPopBatch (the branch for
    the non-legacy configuration); the batch has room for [n] pointers. *)
Definition bitmap_pop_batch (c : cfg) (s : span) (n size : Z) : list Z * span :=
  let '(l, b) := pop_batch k_bitmap_size (bitmap_ s) n in
  (map (fun i => bitmap_idx_to_ptr (span_start c s) (u16 i) size) l,
   MkSpan (first_page s) (embed_count s) (freelist s)
          (u16 (allocated s + Z.of_nat (length l))) (cache_size s) (cache s) b).

(** span.h:802-834: the freelist part of ListPopBatch.  [n] is N - result; each
    iteration pops at least one object, so [fuel = n] suffices. *)
Fixpoint list_pop_loop (fuel : nat) (m : memory) (start size fl ec n : Z) : list Z * Z * Z :=
  match fuel with
  | O => ([], fl, ec)
  | S fuel =>
    if n <=? 0 then ([], fl, ec)
    else if fl =? k_list_end then ([], fl, ec)
    else
      let host := idx_to_ptr start fl in
      let iter := if n <? ec then n else ec in
      let l := map (fun i => idx_to_ptr start (m (host + 2 * (ec - i)))) (zseq 0 (Z.to_nat iter)) in
      let ec := ec - iter in
      let n := n - iter in
      if n =? 0 then (l, fl, ec)
      else
        let '(l', fl', ec') := list_pop_loop fuel m start size (m host) (u16 (max_embed size)) (n - 1) in
        (l ++ host :: l', fl', ec')
  end.

(** span.h:786-838 ListPopBatch. *)
Definition list_pop_batch (c : cfg) (m : memory) (s : span) (n size : Z) : list Z * span :=
  let csize := cache_size s in
  let start := span_start c s in
  let reads := if csize <? n then csize else n in
  let l1 := map (fun r => idx_to_ptr start (cache s (csize - r - 1))) (zseq 0 (Z.to_nat reads)) in
  let '(l2, fl, ec) := list_pop_loop (Z.to_nat n) m start size (freelist s) (embed_count s) (n - reads) in
  let l := l1 ++ l2 in
  (l, MkSpan (first_page s) ec fl (u16 (allocated s + Z.of_nat (length l)))
             (csize - reads) (cache s) (bitmap_ s)).

(** span.h:775-784 FreelistPopBatch. *)
Definition freelist_pop_batch (c : cfg) (m : memory) (s : span) (n size : Z) : list Z * span :=
  if use_bitmap_for_size c size then bitmap_pop_batch c s n size
  else list_pop_batch c m s n size.

(** span.h:489: writes into the cache. *)
Fixpoint cache_fill (ca : Z -> Z) (k : Z) (l : list Z) : Z -> Z :=
  match l with
  | [] => ca
  | i :: l => cache_fill (upd ca k i) (k + 1) l
  end.

(** span.h:513-529: push onto the freelist (pointer version). *)
Fixpoint list_push_loop (c : cfg) (m : memory) (start size fl ec : Z) (batch : list Z)
  : memory * Z * Z :=
  match batch with
  | [] => (m, fl, ec)
  | ptr :: batch =>
    let idx := ptr_to_idx c ptr in
    if negb (fl =? k_list_end) && negb (ec =? max_embed size) then
      let host := idx_to_ptr start fl in
      let ec := u16 (ec + 1) in
      list_push_loop c (upd m (host + 2 * ec) idx) start size fl ec batch
    else list_push_loop c (upd m ptr fl) start size idx 0 batch
  end.

(** span.h:485-531 ListPushBatch(Span<void*>). *)
Definition list_push_batch (c : cfg) (m : memory) (s : span) (batch : list Z) (size : Z)
  : memory * span :=
  let writes := if cache_size s <? k_cache_size
                then Z.min (k_cache_size - cache_size s) (Z.of_nat (length batch)) else 0 in
  let l1 := firstn (Z.to_nat writes) batch in
  let ca := cache_fill (cache s) (cache_size s) (map (ptr_to_idx c) l1) in
  let cs := cache_size s + writes in
  match skipn (Z.to_nat writes) batch with
  | [] => (m, MkSpan (first_page s) (embed_count s) (freelist s) (allocated s) cs ca (bitmap_ s))
  | p :: rest =>
    let start := Z.ldiff p (page_size c - 1) in
    let '(m, fl, ec) := list_push_loop c m start size (freelist s) (embed_count s) (p :: rest) in
    (m, MkSpan (first_page s) ec fl (allocated s) cs ca (bitmap_ s))
  end.

(** span.h:573-586: push onto the freelist (index version);
    [fl] is not the list end here. *)
Fixpoint list_push_idx_loop (m : memory) (start size fl ec : Z) (batch : list Z)
  : memory * Z * Z :=
  match batch with
  | [] => (m, fl, ec)
  | idx :: batch =>
    if negb (ec =? max_embed size) then
      let ec := u16 (ec + 1) in
      list_push_idx_loop (upd m (idx_to_ptr start fl + 2 * ec) idx) start size fl ec batch
    else list_push_idx_loop (upd m (idx_to_ptr start idx) fl) start size idx 0 batch
  end.

(** span.h:533-590 ListPushBatch(Span<ObjIdx>). *)
Definition list_push_idx_batch (c : cfg) (m : memory) (s : span) (batch : list Z) (size : Z)
  : memory * span :=
  let writes := if cache_size s <? k_cache_size
                then Z.min (k_cache_size - cache_size s) (Z.of_nat (length batch)) else 0 in
  let ca := cache_fill (cache s) (cache_size s) (firstn (Z.to_nat writes) batch) in
  let cs := cache_size s + writes in
  match skipn (Z.to_nat writes) batch with
  | [] => (m, MkSpan (first_page s) (embed_count s) (freelist s) (allocated s) cs ca (bitmap_ s))
  | i :: rest =>
    let start := span_start c s in
    let '(m, fl, ec) :=
      if negb (freelist s =? k_list_end)
      then list_push_idx_loop m start size (freelist s) (embed_count s) (i :: rest)
      else list_push_idx_loop (upd m (idx_to_ptr start i) k_list_end) start size i 0 rest in
    (m, MkSpan (first_page s) ec fl (allocated s) cs ca (bitmap_ s))
  end.

(** span.h:615-632 and
    span.h:634-645: set the bits of the
    given indices. *)
Definition bitmap_push_idx (s : span) (idxs : list Z) : span :=
  MkSpan (first_page s) (embed_count s) (freelist s) (allocated s) (cache_size s) (cache s)
         (fold_left (fun b i => fst (set_bit b i)) idxs (bitmap_ s)).

Definition set_allocated (s : span) (a : Z) : span :=
  MkSpan (first_page s) (embed_count s) (freelist s) a (cache_size s) (cache s) (bitmap_ s).

(** span.h:468-483 FreelistPushBatch<void*>.
    The boolean is the result: [false] means every object of the span is free
    again (and nothing was recorded). *)
Definition freelist_push_batch (c : cfg) (m : memory) (s : span) (batch : list Z) (size reciprocal : Z)
  : memory * span * bool :=
  if allocated s =? Z.of_nat (length batch) then (m, s, false)
  else
    let s := set_allocated s (u16 (allocated s - Z.of_nat (length batch))) in
    if use_bitmap_for_size c size
    then (m, bitmap_push_idx s (map (fun p => bitmap_ptr_to_idx (span_start c s) p reciprocal) batch), true)
    else let '(m, s) := list_push_batch c m s batch size in (m, s, true).

(** The same for FreelistPushBatch<ObjIdx>, as used by the central free list: the indices
    are computed first (central_freelist.h:628,
    central_freelist.h:632). *)
Definition ptrs_to_idx (c : cfg) (s : span) (size reciprocal : Z) (batch : list Z) : list Z :=
  if use_bitmap_for_size c size
  then map (fun p => bitmap_ptr_to_idx (span_start c s) p reciprocal) batch
  else map (ptr_to_idx c) batch.
Definition freelist_push_idx_batch (c : cfg) (m : memory) (s : span) (batch : list Z) (size : Z)
  : memory * span * bool :=
  if allocated s =? Z.of_nat (length batch) then (m, s, false)
  else
    let s := set_allocated s (u16 (allocated s - Z.of_nat (length batch))) in
    if use_bitmap_for_size c size then (m, bitmap_push_idx s batch, true)
    else let '(m, s) := list_push_idx_batch c m s batch size in (m, s, true).

(** span.h:701-714 FreelistEmpty. *)
Definition freelist_empty (s : span) (objects_per_span : Z) : bool :=
  allocated s =? objects_per_span.

(** span.cc:197-213: build the freelist; [host = nullptr] is [has_host = false].
    Each iteration narrows idxEnd - idx, so that many iterations suffice. *)
Fixpoint build_loop (fuel : nat) (m : memory) (start size step : Z) (has_host : bool)
  (fl ec idx idx_end : Z) : memory * Z * Z :=
  match fuel with
  | O => (m, fl, ec)
  | S fuel =>
    if idx <? idx_end then
      if has_host && negb (ec =? max_embed size) then
        let ec := ec + 1 in
        let idx_end := u16 (idx_end - step) in
        build_loop fuel (upd m (idx_to_ptr start fl + 2 * ec) idx_end) start size step has_host fl ec idx idx_end
      else
        build_loop fuel (upd m (idx_to_ptr start idx) fl) start size step true idx 0 (u16 (idx + step)) idx_end
    else (m, fl, ec)
  end.

(** span.cc:183: fill the cache. *)
Fixpoint build_cache (fuel : nat) (ca : Z -> Z) (cs step idx idx_end : Z) : (Z -> Z) * Z * Z :=
  match fuel with
  | O => (ca, cs, idx)
  | S fuel =>
    if (idx <? idx_end) && (cs <? k_cache_size)
    then build_cache fuel (upd ca cs idx) (cs + 1) step (u16 (idx + step)) idx_end
    else (ca, cs, idx)
  end.

(** span.cc:144-216 BuildFreelist and
    span.cc:134-142 BuildBitmap; [n] is
    batch.size(). alloc_time_ is not modelled. *)
Definition build_freelist (c : cfg) (m : memory) (s : span) (size count n : Z)
  : list Z * memory * span :=
  if use_bitmap_for_size c size then
    let s := MkSpan (first_page s) (embed_count s) k_list_end 0 (cache_size s) (cache s)
                    (set_range k_bitmap_size clear_all 0 count) in
    let '(l, s) := bitmap_pop_batch c s n size in (l, m, s)
  else
    let start := span_start c s in
    let result := if n <=? count then n else count in
    let l := map (fun i => start + i * size) (zseq 0 (Z.to_nat result)) in
    let step := u16 (size / k_alignment) in
    let idx := u16 (step * result) in
    let idx_end := u16 (count * step) in
    let '(ca, cs, idx) := build_cache (Z.to_nat k_cache_size) (cache s) 0 step idx idx_end in
    let '(m, fl, ec) := build_loop (Z.to_nat (idx_end - idx)) m start size step false k_list_end 0 idx idx_end in
    (l, m, MkSpan (first_page s) ec fl (u16 result) cs ca (bitmap_ s)).
