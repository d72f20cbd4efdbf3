(** Model of printing into a buffer (Printer of tcmalloc/internal/logging.h) and of the functions of tcmalloc/tcmalloc.cc that
    return the statistics as text.

    Memory is a function from addresses to bytes; a buffer is the [len] addresses from [base].  What is printed is an
    arbitrary sequence of texts: which statistics are printed is not modelled. *)
From Verif Require Import Base.

(** buf_, left_ and required_, logging.h:249-252. *)
Record printer := Printer { pr_buf : Z; pr_left : Z; pr_required : Z }.

(** memcpy to [at], byte by byte. *)
Fixpoint put (m : Z -> Z) (at_ : Z) (bs : list Z) : Z -> Z :=
  match bs with [] => m | b :: bs => put (upd m at_ b) (at_ + 1) bs end.

(** absl::SNPrintF(buf, size, ...) that formats to [text]: as much of it as fits with the terminating NUL.  Nothing is written if size
    is 0.  The number of bytes returned is the length of the text. *)
Definition snprintf (m : Z -> Z) (buf size : Z) (text : list Z) : (Z -> Z) * Z :=
  let n := Z.of_nat (length text) in
  (if 0 <? size then let k := Z.min n (size - 1) in upd (put m buf (firstn (Z.to_nat k) text)) (buf + k) 0 else m, n).

(** What is done with a printer.  [Broken junk]: a printf whose formatting fails after it has written [junk]. *)
Inductive print := Printf (text : list Z) | Broken (junk : list Z) | Append (pieces : list (list Z)).

(** Printer(buf, length), logging.h:256-259. *)
Definition pr_init (m : Z -> Z) (buf len : Z) : (Z -> Z) * printer := (upd m buf 0, Printer buf len 0).

(** printf, logging.h:264-280, and Append, logging.h:282-312. *)
Definition pr_step (s : (Z -> Z) * printer) (o : print) : (Z -> Z) * printer :=
  let (m, p) := s in
  match o with
  | Printf text =>
      let (m, r) := snprintf m (pr_buf p) (pr_left p) text in
      (m, if pr_left p <? r then Printer (pr_buf p) 0 (pr_required p + r)                       (* :274-275 *)
          else Printer (pr_buf p + r) (pr_left p - r) (pr_required p + r))                     (* :277-278 *)
  | Broken junk => (put m (pr_buf p) (firstn (Z.to_nat (pr_left p)) junk), Printer (pr_buf p) 0 (pr_required p))   (* :268-271 *)
  | Append pieces =>
      let total := zsum (map (fun x => Z.of_nat (length x)) pieces) in                         (* :292-295 *)
      if pr_left p <? total then (m, Printer (pr_buf p) 0 (pr_required p + total))             (* :296-299 *)
      else
        let '(m, buf) := fold_left (fun s x => (put (fst s) (snd s) x, snd s + Z.of_nat (length x))) pieces (m, pr_buf p) in   (* :301-309 *)
        (m, Printer buf (pr_left p - total) (pr_required p + total))                           (* :311 *)
  end.
Definition pr_run (s : (Z -> Z) * printer) (os : list print) : (Z -> Z) * printer := fold_left pr_step os s.

(** TCMalloc_Internal_GetStats, tcmalloc.cc:254-276: [dump] is what DumpStats and the two printfs print, [region] what the region factory prints into the
    rest of the buffer with a printer of its own (MmapRegionFactory::GetStats, system_allocator.h:417-427).  The same with GetStatsInPbtxt,
    tcmalloc.cc:197-219.  Returned are the memory and the length. *)
Definition get_stats (m : Z -> Z) (buf len : Z) (dump region : list print) : (Z -> Z) * Z :=
  let (m, p) := pr_run (pr_init m buf len) dump in
  let n := pr_required p in
  let rest := if n <? len then len - n else 0 in
  if 0 <? rest then
    let (m, p) := pr_run (pr_init m (buf + n) rest) region in (m, n + pr_required p)
  else (m, n).

(** Bytes [from, from + n) of memory. *)
Fixpoint bytes_at (m : Z -> Z) (from : Z) (n : nat) : list Z :=
  match n with O => [] | S n => m from :: bytes_at m (from + 1) n end.

(** MallocExtension_Internal_GetStats, tcmalloc.cc:230-252, from shift [s] on with [k] attempts left (s + k = 24).  [src i] is what there is to print at attempt [i];
    the buffer of an attempt is at [buf i] in memory [m]. *)
Fixpoint get_stats_string (m : Z -> Z) (buf : Z -> Z) (src : Z -> list print * list print) (s : Z) (k : nat) : list Z :=
  match k with
  | O => []
  | S k =>
      let size := 2 ^ s - 1 in
      let (m', written) := get_stats m (buf s) size (fst (src s)) (snd (src s)) in
      if written <? size then bytes_at m' (buf s) (Z.to_nat written) else get_stats_string m' buf src (s + 1) k
  end.

(** PrintStats, tcmalloc.cc:221-228 (malloc_stats): what is written to standard error, the bytes up to the first NUL; [fuel] is the size of the
    buffer: None if there is no NUL in it. *)
Fixpoint c_string (m : Z -> Z) (at_ : Z) (fuel : nat) : option (list Z) :=
  match fuel with
  | O => None
  | S fuel => if m at_ =? 0 then Some [] else match c_string m (at_ + 1) fuel with Some l => Some (m at_ :: l) | None => None end
  end.
Definition print_stats (m : Z -> Z) (buf : Z) (dump : list print) : option (list Z) :=
  let (m, p) := pr_run (pr_init m buf (2 ^ 16)) dump in c_string m buf (Z.to_nat (2 ^ 16)).
