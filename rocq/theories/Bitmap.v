(** Model of Bitmap<N> and RangeTracker<N>: tcmalloc/internal/range_tracker.h.
    A bitmap is its array of 64-bit words. *)
From Verif Require Import Base.

Definition word_size : Z := 64.                            (* range_tracker.h:102 *)
Definition k_words (N : Z) : Z := (N + word_size - 1) / word_size.   (* :103 *)
Definition dead_bits (N : Z) : Z := word_size * k_words N - N.       (* :104 *)
Definition all_ones : Z := Z.ones 64.

Definition words := Z -> Z.

(** Bit [i] of the array (used in specifications; the code computes it as in
    [get_bit]). *)
Definition bit (b : words) (i : Z) : bool := Z.testbit (b (i / 64)) (i mod 64).

(** internal/range_tracker.h:377-383 GetBit. *)
Definition get_bit (b : words) (i : Z) : bool :=
  negb (Z.land (b (i / word_size)) (Z.shiftl 1 (i mod word_size)) =? 0).

(** internal/range_tracker.h:386-395 SetBit: new array and previous value. *)
Definition set_bit (b : words) (i : Z) : words * bool :=
  let word := i / word_size in
  let mask := Z.shiftl 1 (i mod word_size) in
  (upd b word (Z.lor (b word) mask), negb (Z.land (b word) mask =? 0)).

(** internal/range_tracker.h:398-407 ClearBit.  [x & ~mask] is [Z.ldiff]. *)
Definition clear_bit (b : words) (i : Z) : words * bool :=
  let word := i / word_size in
  let mask := Z.shiftl 1 (i mod word_size) in
  (upd b word (Z.ldiff (b word) mask), negb (Z.land (b word) mask =? 0)).

(** The mask of CountWordBits and SetWordBits: internal/range_tracker.h:351, 368.
    For [to = from] the C++ shift by 64 is undefined; the theorems assume non-empty ranges. *)
Definition word_mask (from to : Z) : Z :=
  wrap64 (Z.shiftl (Z.shiftr all_ones (word_size - (to - from))) from).

(** absl::popcount. *)
Definition popcount (w : Z) : Z := zcount (Z.testbit w) 0 64.

(** internal/range_tracker.h:344-355 CountWordBits. *)
Definition count_word_bits (b : words) (i from to : Z) : Z :=
  popcount (Z.land (b i) (word_mask from to)).

(** internal/range_tracker.h:427-432: the while loop of CountBits; [fuel] bounds the
    number of words. *)
Fixpoint count_loop (fuel : nat) (b : words) (word n count : Z) : Z :=
  match fuel with
  | O => count
  | S fuel =>
    if n <=? 0 then count
    else
      let word := word + 1 in
      let k := Z.min n word_size in
      count_loop fuel b word (n - k) (count + count_word_bits b word 0 k)
  end.

(** internal/range_tracker.h:415-435 CountBits(index, n). *)
Definition count_bits (N : Z) (b : words) (index n : Z) : Z :=
  if n =? 0 then 0
  else
    let word := index / word_size in
    let offset := index mod word_size in
    let k := Z.min (offset + n) word_size in
    count_loop (Z.to_nat (k_words N)) b word (n - (k - offset))
               (count_word_bits b word offset k).

(** internal/range_tracker.h:438-445 IsZero. *)
Fixpoint is_zero_loop (fuel : nat) (b : words) (i : Z) : bool :=
  match fuel with
  | O => true
  | S fuel => if negb (b i =? 0) then false else is_zero_loop fuel b (i + 1)
  end.
Definition is_zero (N : Z) (b : words) : bool := is_zero_loop (Z.to_nat (k_words N)) b 0.

(** internal/range_tracker.h:360-374 SetWordBits<Value>. *)
Definition set_word_bits (value : bool) (b : words) (i from to : Z) : words :=
  let mask := word_mask from to in
  upd b i (if value then Z.lor (b i) mask else Z.ldiff (b i) mask).

(** internal/range_tracker.h:477-483: the while loop of SetRangeValue. *)
Fixpoint set_range_loop (fuel : nat) (value : bool) (b : words) (word n : Z) : words :=
  match fuel with
  | O => b
  | S fuel =>
    if n <=? 0 then b
    else
      let word := word + 1 in
      let k := if word_size <? n then word_size else n in
      set_range_loop fuel value (set_word_bits value b word 0 k) word (n - k)
  end.

(** internal/range_tracker.h:469-484 SetRangeValue<Value>. *)
Definition set_range_value (N : Z) (value : bool) (b : words) (index n : Z) : words :=
  let word := index / word_size in
  let offset := index mod word_size in
  let k := offset + n in
  let k := if word_size <? k then word_size else k in
  set_range_loop (Z.to_nat (k_words N)) value
    (set_word_bits value b word offset k) word (n - (k - offset)).
Definition set_range N b index n := set_range_value N true b index n.    (* :448-451 *)
Definition clear_range N b index n := set_range_value N false b index n. (* :453-456 *)

(** internal/range_tracker.h:458-465 ClearLowestBit. *)
Fixpoint clear_lowest_loop (fuel : nat) (b : words) (i : Z) : words :=
  match fuel with
  | O => b
  | S fuel =>
    if negb (b i =? 0) then upd b i (Z.land (b i) (b i - 1))
    else clear_lowest_loop fuel b (i + 1)
  end.
Definition clear_lowest_bit (N : Z) (b : words) : words :=
  clear_lowest_loop (Z.to_nat (k_words N)) b 0.

(** absl::countr_zero for a word. *)
Fixpoint ctz_from (n : nat) (j w : Z) : Z :=
  match n with
  | O => j
  | S n => if Z.testbit w j then j else ctz_from n (j + 1) w
  end.
Definition countr_zero (w : Z) : Z := ctz_from 64 0 w.

(** absl::bit_width for a word. *)
Definition bit_width (w : Z) : Z := if w =? 0 then 0 else Z.log2 w + 1.

(** [Goal ? x : ~x] on 64 bits. *)
Definition goal_word (goal : bool) (w : Z) : Z := if goal then w else Z.ldiff all_ones w.

(** internal/range_tracker.h:579-586: scan of the following words.  [fuel] is the number
    of words left; running out of words is the [return N]. *)
Fixpoint find_loop (fuel : nat) (goal : bool) (b : words) (word here : Z)
  : option (Z * Z) :=
  if negb (here =? 0) then Some (word, here)
  else match fuel with
  | O => None
  | S fuel => find_loop fuel goal b (word + 1) (goal_word goal (b (word + 1)))
  end.

(** internal/range_tracker.h:569-605 FindValue<Goal>.  [None]: the ASSUME on line 599
    is violated (undefined behaviour). *)
Definition find_value (N : Z) (goal : bool) (b : words) (index : Z) : option Z :=
  let offset := index mod word_size in
  let word := index / word_size in
  let here := Z.land (goal_word goal (b word)) (wrap64 (Z.shiftl all_ones offset)) in
  match find_loop (Z.to_nat (k_words N - 1 - word)) goal b word here with
  | None => Some N
  | Some (word, here) =>
    let ret := countr_zero here + word * word_size in
    if 0 <? dead_bits N then
      if goal then (if ret <? N then Some ret else None)
      else Some (if N <? ret then N else ret)
    else Some ret
  end.
Definition find_set N b index := find_value N true b index.    (* :499-502 *)
Definition find_clear N b index := find_value N false b index. (* :504-507 *)

(** internal/range_tracker.h:618-625. *)
Fixpoint find_back_loop (fuel : nat) (goal : bool) (b : words) (word here : Z)
  : option (Z * Z) :=
  if negb (here =? 0) then Some (word, here)
  else match fuel with
  | O => None
  | S fuel => find_back_loop fuel goal b (word - 1) (goal_word goal (b (word - 1)))
  end.

(** internal/range_tracker.h:609-631 FindValueBackwards<Goal>. *)
Definition find_value_backwards (goal : bool) (b : words) (index : Z) : Z :=
  let offset := index mod word_size in
  let word := index / word_size in
  let here := Z.land (goal_word goal (b word)) (wrap64 (wrap64 (Z.shiftl 2 offset) - 1)) in
  match find_back_loop (Z.to_nat word) goal b word here with
  | None => -1
  | Some (word, here) => bit_width here - 1 + word * word_size
  end.
Definition find_set_backwards b index := find_value_backwards true b index.
Definition find_clear_backwards b index := find_value_backwards false b index.

(** internal/range_tracker.h:487-496 NextFreeRange: [Some None] is "return false". *)
Definition next_free_range (N : Z) (b : words) (start : Z) : option (option (Z * Z)) :=
  if N <=? start then Some None
  else
    let? i := find_clear N b start in
    if i =? N then Some None
    else
      let? j := find_set N b i in
      Some (Some (i, j - i)).

(** internal/range_tracker.h:519-523 Clear. *)
Definition clear_all : words := fun _ => 0.

(** internal/range_tracker.h:526-565 bitwise operators.  Arrays are total functions here,
    so the word loop is a pointwise definition; the dead bits of [~] are cleared
    in the last word as in the code. *)
Definition bm_not (N : Z) (b : words) : words :=
  fun k => if (k =? k_words N - 1) && (0 <? dead_bits N)
           then Z.land (Z.ldiff all_ones (b k)) (Z.shiftr all_ones (dead_bits N))
           else Z.ldiff all_ones (b k).
Definition bm_and (a b : words) : words := fun k => Z.land (a k) (b k).
Definition bm_or (a b : words) : words := fun k => Z.lor (a k) (b k).
Definition bm_xor (a b : words) : words := fun k => Z.lxor (a k) (b k).

(** internal/range_tracker.h:65-79 PopBatch: the visited indices, in order. *)
Fixpoint pop_word (fuel : nat) (base word limit : Z) : list Z * Z :=
  match fuel with
  | O => ([], word)
  | S fuel =>
    if negb (word =? 0) && (0 <? limit) then
      let off := countr_zero word in
      let '(l, w) := pop_word fuel base (Z.land word (word - 1)) (limit - 1) in
      (base + off :: l, w)
    else ([], word)
  end.
Fixpoint pop_batch_loop (fuel : nat) (b : words) (i limit : Z) : list Z * words :=
  match fuel with
  | O => ([], b)
  | S fuel =>
    if limit <=? 0 then ([], b)
    else
      let '(l, w) := pop_word 64 (i * word_size) (b i) limit in
      let '(l', b') := pop_batch_loop fuel (upd b i w) (i + 1) (limit - Z.of_nat (length l)) in
      (l ++ l', b')
  end.
Definition pop_batch (N : Z) (b : words) (limit : Z) : list Z * words :=
  pop_batch_loop (Z.to_nat (k_words N)) b 0 limit.

(** internal/range_tracker.h:669-689 ExtractBits. *)
Definition extract_bits (b : words) (src_idx k : Z) : Z :=
  let word_idx := src_idx / word_size in
  let bit_offset := src_idx mod word_size in
  let val := Z.shiftr (b word_idx) bit_offset in
  let val := if word_size <? bit_offset + k
             then Z.lor val (wrap64 (Z.shiftl (b (word_idx + 1)) (word_size - bit_offset)))
             else val in
  if k <? word_size then Z.land val (Z.shiftl 1 k - 1) else val.

(** internal/range_tracker.h:692-708 WriteBits. *)
Definition write_bits (b : words) (dst_idx val k : Z) : words :=
  let word_idx := dst_idx / word_size in
  let bit_offset := dst_idx mod word_size in
  let mask := if k =? word_size then all_ones
              else wrap64 (Z.shiftl (Z.shiftl 1 k - 1) bit_offset) in
  upd b word_idx (Z.lor (Z.ldiff (b word_idx) mask)
                        (Z.land (wrap64 (Z.shiftl val bit_offset)) mask)).

(** internal/range_tracker.h:713-742 CopyBits. *)
Fixpoint copy_loop (fuel : nat) (dst : words) (cur_dst : Z) (src : words)
  (cur_src remaining : Z) : words :=
  match fuel with
  | O => dst
  | S fuel =>
    if remaining <=? 0 then dst
    else
      let dst_offset := cur_dst mod word_size in
      let k := Z.min remaining (word_size - dst_offset) in
      let val := extract_bits src cur_src k in
      copy_loop fuel (write_bits dst cur_dst val k) (cur_dst + k) src (cur_src + k) (remaining - k)
  end.
Definition copy_bits (dst_b : words) (dst : Z) (src_b : words) (src len : Z) : words :=
  copy_loop (Z.to_nat len) dst_b dst src_b src len.

(** internal/range_tracker.h:647-666 Scale from [src_len] bits to [M] bits. *)
Fixpoint scale_loop (fuel : nat) (N M : Z) (src : words) (src_per_dst dst_per_src required : Z)
  (src_idx dst_idx src_len : Z) (res : words) : words :=
  match fuel with
  | O => res
  | S fuel =>
    if src_len <=? src_idx then res
    else
      let count := count_bits N src src_idx src_per_dst in
      let res := if required <=? count then set_range M res dst_idx dst_per_src else res in
      scale_loop fuel N M src src_per_dst dst_per_src required
                 (src_idx + src_per_dst) (dst_idx + dst_per_src) src_len res
  end.
Definition scale (N M : Z) (src : words) (src_len : Z) (all : bool) : words :=
  let src_per_dst := Z.max 1 (src_len / M) in
  let dst_per_src := Z.max 1 (M / src_len) in
  let required := if all then src_per_dst else 1 in
  scale_loop (Z.to_nat src_len) N M src src_per_dst dst_per_src required 0 0 src_len clear_all.

(** ** RangeTracker *)

(** range_tracker.h:142-186.  The counters have the smallest unsigned type that
    can hold N; they are shown to stay within [0, N]. *)
Record tracker := Tracker {
  rt_bits : words;
  rt_longest : Z;
  rt_nused : Z;
  rt_nallocs : Z
}.

Definition rt_init (N : Z) : tracker := Tracker clear_all N 0 0.   (* :142-144, 335-340 *)

(** The loop [while (bits_.NextFreeRange(index, &index, &len)) { ...; index += len; }]
    (internal/range_tracker.h:249-263, 292-298), with the body as a fold function. *)
Fixpoint range_loop {A : Type} (f : A -> Z -> Z -> A) (fuel : nat) (N : Z) (b : words)
  (index : Z) (acc : A) : option A :=
  match fuel with
  | O => None
  | S fuel =>
    let? r := next_free_range N b index in
    match r with
    | None => Some acc
    | Some (i, len) => range_loop f fuel N b (i + len) (f acc i len)
    end
  end.
Definition range_fuel (N : Z) : nat := Z.to_nat (N + 2).

(** internal/range_tracker.h:250-260: body of the FindAndMark loop. *)
Record fam := Fam { f_longest : Z; f_second : Z; f_bindex : Z; f_blen : Z }.
Definition fam_body (n : Z) (a : fam) (index len : Z) : fam :=
  let '(Fam l s bi bl) := a in
  let '(l, s) := if l <? len then (len, l) else if s <? len then (l, len) else (l, s) in
  let '(bi, bl) := if (n <=? len) && (len <? bl) then (index, len) else (bi, bl) in
  Fam l s bi bl.

(** internal/range_tracker.h:233-276 FindAndMark.  [None]: TC_CHECK_LT(best_index, N)
    fails (or an ASSUME is violated). *)
Definition find_and_mark (N : Z) (t : tracker) (n : Z) : option (tracker * Z) :=
  let? a := range_loop (fam_body n) (range_fuel N) N (rt_bits t) 0 (Fam 0 0 N (2 * N)) in
  if f_bindex a <? N then
    let bits := set_range N (rt_bits t) (f_bindex a) n in
    let longest :=
      if f_blen a =? f_longest a then
        let l := f_longest a - n in
        if l <? f_second a then f_second a else l
      else f_longest a in
    Some (Tracker bits longest (rt_nused t + n) (rt_nallocs t + 1), f_bindex a)
  else None.

(** internal/range_tracker.h:281-301 Mark. *)
Definition mark (N : Z) (t : tracker) (index n : Z) : option tracker :=
  let bits := set_range N (rt_bits t) index n in
  let? longest := range_loop (fun l _ len => if l <? len then len else l) (range_fuel N) N bits 0 0 in
  Some (Tracker bits longest (rt_nused t + n) (rt_nallocs t + 1)).

(** internal/range_tracker.h:306-319 Unmark. *)
Definition unmark (N : Z) (t : tracker) (index n : Z) : option tracker :=
  let bits := clear_range N (rt_bits t) index n in
  let? lim := find_set N bits (index + n - 1) in
  let index := find_set_backwards bits index + 1 in
  let n' := lim - index in
  Some (Tracker bits (if rt_longest t <? n' then n' else rt_longest t)
                (rt_nused t - n) (rt_nallocs t - 1)).
