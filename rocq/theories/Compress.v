(** Model of the estimate of zero bytes, tcmalloc/internal/compressibility.cc.
    Addresses are integers that do not wrap; the page size is a power of two, so rounding with
    masks is rounding with division. *)
From Verif Require Import Base Bitmap SafeIo.

(** internal/compressibility.cc:37-43 AlignDown, AlignUp. *)
Definition align_down (a p : Z) : Z := a / p * p.
Definition align_up (a p : Z) : Z := (a + p - 1) / p * p.

(** internal/compressibility.cc:66-89: the loop of CopyResidentPages.  [N] bits of [bm] say which
    pages are resident, [size] bytes at [ua] are looked at and [cap] is the size of the
    destination.  The chunks, the last one first, and their total size. *)
Fixpoint chunk_loop (fuel : nat) (N : Z) (bm : words) (p ua size cap scan page : Z) (chunks : list (Z * nat)) (total : Z)
  : option (list (Z * nat) * Z) :=
  match fuel with
  | O => None
  | S fuel =>
    let? s := find_set N bm page in
    if scan <=? s then Some (chunks, total)
    else
      let? e := find_clear N bm s in
      let e := Z.min e scan in
      let base := align_down ua p in
      let chunk_start := Z.max ua (base + s * p) in
      let chunk_end := Z.min (ua + size) (base + e * p) in
      let to_copy := Z.min (chunk_end - chunk_start) (cap - total) in
      let chunks := (chunk_start, Z.to_nat to_copy) :: chunks in
      let total := total + to_copy in
      if (e <? scan) && (total <? cap) then chunk_loop fuel N bm p ua size cap scan e chunks total
      else Some (chunks, total)
  end.

(** internal/compressibility.cc:48-99 CopyResidentPages: [None] inside is the error.  [mem] and
    [part] are those of SafeCopyMemory. *)
Definition copy_resident (mem : Z -> option Z) (part : Z) (N : Z) (bm : words) (p ua size cap : Z) : option (option (list Z)) :=
  let num_pages := (align_up (ua + size) p - align_down ua p) / p in
  let scan := Z.min num_pages N in
  let? (chunks, total) := chunk_loop (Z.to_nat N + 1) N bm p ua size cap scan 0 [] 0 in
  if 0 <? total then
    let? (dst, ok) := safe_copy mem part (rev chunks) false in
    Some (if ok then Some dst else None)
  else Some (Some []).

(** internal/compressibility.cc:103-120 EstimateZeroBytes.  [share z n b] is the integer below
    the double (z / n) * b. *)
Definition estimate_zero_bytes (share : Z -> Z -> Z -> Z) (size resident swapped : Z) (sample : list Z) : Z :=
  let backed := Z.min size (resident + swapped) in
  let unbacked := size - backed in
  match sample with
  | [] => unbacked
  | _ => unbacked + share (Z.of_nat (length (filter (fun c => c =? 0) sample))) (Z.of_nat (length sample)) backed
  end.

(** internal/compressibility.cc:128-143 Analyze. *)
Definition analyze (share : Z -> Z -> Z -> Z) (mem : Z -> option Z) (part N : Z) (bm : words) (p ua size cap resident swapped : Z)
  : option (option Z) :=
  let? sample := copy_resident mem part N bm p ua size cap in
  Some (match sample with None => None | Some s => Some (estimate_zero_bytes share size resident swapped s) end).
