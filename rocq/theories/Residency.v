(** Questions to the kernel about ranges of memory: how much of a range is resident or swapped (residency.cc, mincore.cc) and how
    much is stale or locked (pageflags.cc).  Heap profiles and the treatment of hugepages use the answers.

    The size of a hardware page, GetPageSize(), is the parameter [hp] (4096, 16384, 65536...).  Sums of bytes are at most the size
    of the range, so they are not wrapped. *)
From Verif Require Import Base Bitmap.

(** residency.h:122-124, pageflags.h:139-141: kBufferLength, kPagemapEntrySize, kEntriesInBuf. *)
Definition k_buffer_length : Z := 4096.
Definition k_entry_size : Z := 8.
Definition k_entries : Z := k_buffer_length / k_entry_size.
(** pageflags.h:147 kHugePageSize, residency.h:131, range of the bitmaps: residency.h kMaxResidencyBits. *)
Definition k_huge : Z := 2097152.
Definition k_max_bits : Z := 512.

(** A file of 64-bit entries in /proc.  [fd_seek o]: lseek to byte [o] succeeds.  [fd_read o n]: signal_safe_read of [n] bytes at
    byte [o]; [None] when it returns anything but [n], otherwise the entries. *)
Record fdesc := Fd { fd_open : bool; fd_seek : Z -> bool; fd_read : Z -> Z -> option (list Z) }.

(** residency.cc:37-49 PageSwapped, PagePresent. *)
Definition page_swapped (w : Z) : bool := Z.land w (2 ^ 62) =? 2 ^ 62.
Definition page_present (w : Z) : bool := Z.land w (2 ^ 63) =? 2 ^ 63.

(** residency.h:40-47 Residency::Info. *)
Record info := Info { i_resident : Z; i_swapped : Z; i_bits : words }.

(** residency.cc:53-67 Update. *)
Definition update (w size idx : Z) (i : info) : info :=
  let i1 := if page_present w then
      Info (i_resident i + size) (i_swapped i) (if idx <? k_max_bits then fst (set_bit (i_bits i) idx) else i_bits i) else i in
  if page_swapped w then Info (i_resident i1) (i_swapped i1 + size) (i_bits i1) else i1.

(** residency.cc:95-103 and pageflags.cc:112-125 Seek, GetOffset: the file position. *)
Definition seek (hp : Z) (d : fdesc) (vaddr : Z) : option Z :=
  let offset := vaddr / hp * k_entry_size in if fd_seek d offset then Some offset else None.

(** residency.cc:105-117 ReadOne: the entry and the new position. *)
Definition read_one (d : fdesc) (pos : Z) : option (Z * Z) :=
  match fd_read d pos k_entry_size with Some (w :: _) => Some (w, pos + k_entry_size) | _ => None end.

(** residency.cc:133-135, the loop over a batch. *)
Fixpoint update_all (hp : Z) (l : list Z) (idx : Z) (i : info) : info :=
  match l with [] => i | w :: l => update_all hp l (idx + 1) (update w hp idx i) end.

(** residency.cc:119-139 ReadMany.  The fuel is the number of pages. *)
Fixpoint read_many (fuel : nat) (hp : Z) (d : fdesc) (pos num_pages idx : Z) (i : info) : option (Z * info) :=
  if num_pages <=? 0 then Some (pos, i)
  else match fuel with
  | O => None
  | S fuel =>
      let batch := Z.min k_entries num_pages in
      let to_read := k_entry_size * batch in
      let? l := fd_read d pos to_read in
      read_many fuel hp d (pos + to_read) (num_pages - batch) (idx + batch) (update_all hp l idx i)
  end.

(** residency.cc:151-157: the page of the first byte, and the page after that of the last. *)
Definition base_page (hp uaddr : Z) : Z := Z.ldiff uaddr (hp - 1).
Definition end_page (hp uaddr size : Z) : Z := Z.ldiff (wrap64 (uaddr + size + hp - 1)) (hp - 1).

Definition no_info : info := Info 0 0 clear_all.

(** residency.cc:141-199 Get. *)
Definition residency_get (hp : Z) (d : fdesc) (uaddr size : Z) : option info :=
  if negb (fd_open d) then None
  else if size =? 0 then Some no_info
  else
    let base := base_page hp uaddr in
    let endp := end_page hp uaddr size in
    let remaining := (endp - base) / hp in
    let? pos := seek hp d base in
    if remaining =? 1 then
      let? r := read_one d pos in Some (update (fst r) size 0 no_info)
    else
      let? r := read_one d pos in
      let first := hp - (uaddr - base) in
      let i1 := update (fst r) first 0 no_info in
      let remaining := remaining - 1 in
      let? m := read_many (Z.to_nat remaining) hp d (snd r) (remaining - 1) 1 i1 in
      let last := hp - (endp - uaddr - size) in
      let? r2 := read_one d (fst m) in
      Some (update (fst r2) last (1 + (remaining - 1)) (snd m)).

(** residency.cc:227-237, the loop over the entries of a hugepage. *)
Fixpoint unbacked_loop (l : list Z) (idx : Z) (u s : words) : words * words :=
  match l with
  | [] => (u, s)
  | w :: l =>
      if page_present w then unbacked_loop l (idx + 1) u s
      else if page_swapped w then unbacked_loop l (idx + 1) u (fst (set_bit s idx))
      else unbacked_loop l (idx + 1) (fst (set_bit u idx)) s
  end.
(** residency.cc:201-239 GetUnbackedAndSwappedBitmaps; [None]: a status other than kOk. *)
Definition unbacked_and_swapped (hp : Z) (d : fdesc) (addr : Z) : option (words * words) :=
  if negb (Z.ldiff addr (k_huge - 1) =? addr) then None
  else
    let? pos := seek hp d addr in
    let? l := fd_read d pos (k_entry_size * (k_huge / hp)) in
    Some (unbacked_loop l 0 clear_all clear_all).

(** pageflags.cc:41-86: the bits of an entry of /proc/self/pageflags. *)
Definition flag (b w : Z) : bool := Z.land w (Z.shiftl 1 b) =? Z.shiftl 1 b.
Definition page_head := flag 15.
Definition page_tail := flag 16.
Definition page_thp := flag 22.
Definition page_hugetlbfs := flag 17.
Definition page_stale := flag 44.
Definition is_hugepage (w : Z) : bool := page_thp w || page_hugetlbfs w.
Definition page_locked (w : Z) : bool := negb (Z.land w (Z.lor (Z.shiftl 1 33) (Z.shiftl 1 18)) =? 0).

(** pageflags.h:37-49 PageStats. *)
Record pstats := PStats { s_stale : Z; s_locked : Z; s_scan : Z }.
(** pageflags.cc:88-92 MaybeAddToStats. *)
Definition add_stats (s : pstats) (w delta : Z) : pstats :=
  PStats (if page_stale w then s_stale s + delta else s_stale s) (if page_locked w then s_locked s + delta else s_locked s) (s_scan s).

(** pageflags.cc:127-167 MaybeReadOne: the flags, whether they are those of a hugepage, the position. *)
Definition maybe_read_one (hp : Z) (d : fdesc) (vaddr : Z) : option (Z * bool * Z) :=
  let? pos := seek hp d vaddr in
  let? r := read_one d pos in
  let flags := fst r in
  if (page_head flags || page_tail flags) && negb (page_thp flags) then None
  else if page_tail flags then
    let? pos2 := seek hp d (Z.ldiff vaddr (k_huge - 1)) in
    let? r2 := read_one d pos2 in
    if page_tail (fst r2) then None else Some (fst r2, true, snd r2)
  else Some (flags, page_head flags, snd r).

(** pageflags.h:155 last_head_read_ = -1. *)
Definition no_head : Z := 2 ^ 64 - 1.

(** pageflags.cc:181-195, the loop over a batch. *)
Fixpoint flags_all (hp : Z) (l : list Z) (head : Z) (s : pstats) : option (Z * pstats) :=
  match l with
  | [] => Some (head, s)
  | w :: l =>
      let head := if page_head w then w else head in
      if page_tail w then (if head =? no_head then None else flags_all hp l head (add_stats s head hp))
      else flags_all hp l head (add_stats s w hp)
  end.
(** pageflags.cc:169-200 ReadMany. *)
Fixpoint flags_many (fuel : nat) (hp : Z) (d : fdesc) (pos num_pages head : Z) (s : pstats) : option pstats :=
  if num_pages <=? 0 then Some s
  else match fuel with
  | O => None
  | S fuel =>
      let batch := Z.min k_entries num_pages in
      let to_read := k_entry_size * batch in
      let? l := fd_read d pos to_read in
      let? r := flags_all hp l head s in
      flags_many fuel hp d (pos + to_read) (num_pages - batch) (fst r) (snd r)
  end.

(** pageflags.cc:202-223 IsHugepageBacked. *)
Definition is_hugepage_backed (hp : Z) (d : fdesc) (uaddr : Z) : option bool :=
  if negb (fd_open d) then None
  else match seek hp d (base_page hp uaddr) with
  | None => Some false
  | Some pos => let? r := read_one d pos in Some (is_hugepage (fst r))
  end.

(** pageflags.cc:257-259: the scan interval is asked for only when there are stale bytes; [scan] is what
    MaybeReadStaleScanSeconds (pageflags.cc:413-440) returns. *)
Definition with_scan (scan : Z) (s : pstats) : pstats := if 0 <? s_stale s then PStats (s_stale s) (s_locked s) scan else s.
Definition no_stats : pstats := PStats 0 0 0.

(** pageflags.cc:225-342 Get. *)
Definition flags_get (hp : Z) (d : fdesc) (scan uaddr size : Z) : option pstats :=
  if negb (fd_open d) then None
  else if size =? 0 then Some no_stats
  else
    let base := base_page hp uaddr in
    let endp := end_page hp uaddr size in
    let remaining := (endp - base) / hp in
    let? r := maybe_read_one hp d base in
    let w := fst (fst r) in
    if remaining =? 1 then Some (with_scan scan (add_stats no_stats w size))
    else
      let first := hp - (uaddr - base) in
      let finish s pos remaining :=
        let? s := flags_many (Z.to_nat remaining) hp d pos (remaining - 1) no_head s in
        let last := hp - (endp - uaddr - size) in
        let? r2 := maybe_read_one hp d (endp - hp) in
        Some (with_scan scan (add_stats s (fst (fst r2)) last)) in
      if snd (fst r) then
        let index := Z.land base (k_huge - 1) / hp in
        let represented := k_huge / hp - index in
        let remaining := remaining - represented in
        if remaining <=? 0 then Some (with_scan scan (add_stats no_stats w size))
        else
          let s := add_stats no_stats w (first + (represented - 1) * hp) in
          let? pos := seek hp d (Z.ldiff base (k_huge - 1) + k_huge) in
          finish s pos remaining
      else finish (add_stats no_stats w first) (snd r) (remaining - 1).

(** pageflags.cc:379-407, the loop; [start] is stale_start. *)
Fixpoint stale_loop (n : Z) (l : list Z) (idx start head : Z) (b : words) : option words :=
  match l with
  | [] => Some (if start =? -1 then b else set_range k_max_bits b start (n - start))
  | w :: l =>
      let head := if page_head w then w else head in
      if page_tail w && (head =? no_head) then None
      else
        let w := if page_tail w then head else w in
        if page_stale w then stale_loop n l (idx + 1) (if start =? -1 then idx else start) head b
        else if start =? -1 then stale_loop n l (idx + 1) start head b
        else stale_loop n l (idx + 1) (-1) head (set_range k_max_bits b start (idx - start))
  end.
(** pageflags.cc:343-411 GetSinglePageBitmaps; [None]: a status other than kOk. *)
Definition stale_bitmap (hp : Z) (d : fdesc) (addr : Z) : option words :=
  if negb (Z.land addr (k_huge - 1) =? 0) then None
  else if negb (fd_open d) then None
  else
    let? pos := seek hp d addr in
    let n := k_huge / hp in
    let? l := fd_read d pos (k_entry_size * n) in
    stale_loop n l 0 (-1) no_head clear_all.

(** mincore.h:56 kArrayLength. *)
Definition k_array : Z := 4096.
(** mincore(2): [mc a n] is [None] when it fails, otherwise the bytes it writes, one for each page of [n] bytes at [a]. *)
Definition mincore_fn := Z -> Z -> option (list Z).
(** mincore.cc:104-120, the loop; [Some None]: mincore failed, 0 is returned; [None]: the array is read where mincore has not
    written. *)
Fixpoint mincore_loop (fuel : nat) (hp : Z) (mc : mincore_fn) (res : list Z) (idx base remaining total : Z) : option (option (list Z * Z * Z)) :=
  if remaining <=? hp then Some (Some (res, idx, total))
  else match fuel with
  | O => None
  | S fuel =>
      let? w := nth_error res (Z.to_nat idx) in
      let total := if Z.land w 1 =? 1 then total + hp else total in
      let idx := idx + 1 in
      let base := base + hp in
      let remaining := remaining - hp in
      if idx =? k_array then
        match mc base (Z.min remaining (hp * k_array)) with
        | None => Some None
        | Some res => mincore_loop fuel hp mc res 0 base remaining total
        end
      else mincore_loop fuel hp mc res idx base remaining total
  end.
(** mincore.cc:46-129 residence_impl. *)
Definition residence (hp : Z) (mc : mincore_fn) (uaddr size : Z) : option Z :=
  if size =? 0 then Some 0
  else
    let base := base_page hp uaddr in
    let endp := end_page hp uaddr size in
    let remaining := endp - base in
    if remaining =? hp then
      match mc base remaining with
      | None => Some 0
      | Some res => let? w := nth_error res 0 in Some (if Z.land w 1 =? 1 then size else 0)
      end
    else
      match mc base (Z.min remaining (hp * k_array)) with
      | None => Some 0
      | Some res =>
          let? w := nth_error res 0 in
          let first := hp - (uaddr - base) in
          let total := if Z.land w 1 =? 1 then first else 0 in
          let? r := mincore_loop (Z.to_nat (remaining / hp)) hp mc res 1 (base + hp) (remaining - hp) total in
          match r with
          | None => Some 0
          | Some (res, idx, total) =>
              let last := hp - (endp - uaddr - size) in
              let? w := nth_error res (Z.to_nat idx) in
              Some (if Z.land w 1 =? 1 then total + last else total)
          end
      end.
