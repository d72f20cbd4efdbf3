(** Model of the wrappers of system calls that ignore signals, tcmalloc/internal/util.cc,
    and of the reader of /proc/self/status, tcmalloc/internal/memory_stats.cc.
    Bytes are their codes. *)
From Verif Require Import Base CpuList.

(** ** What the kernel does *)

Definition EINTR : Z := 4.

(** The outcome of one read(2): it is interrupted, fails, or gives up to [k] bytes (at
    least one unless the file is at its end or none were asked for). *)
Inductive read_event := RIntr | RFail (errno : Z) | RGive (k : nat).
(** The outcome of one poll(2) with timeout 0. *)
Inductive poll_event := PIntr | PFail (errno : Z) | PNone | PReady.
(** The outcome of one write(2). *)
Inductive write_event := WIntr | WFail (errno : Z) | WTake (k : nat).

(** A descriptor open for reading: the bytes not yet read and the outcomes of the next
    calls.  Beyond the end of the lists every read gives all it can and every poll finds
    data. *)
Record source := mk_source { s_rest : list Z; s_reads : list read_event; s_polls : list poll_event }.

Definition sys_read (w : source) (n : nat) : source * option (list Z) * Z :=
  let give k := let got := firstn (Nat.min n (Nat.max 1 k)) (s_rest w) in
                (mk_source (skipn (length got) (s_rest w)) (tl (s_reads w)) (s_polls w), Some got, 0) in
  match s_reads w with
  | [] => give n
  | RGive k :: _ => give k
  | RIntr :: r => (mk_source (s_rest w) r (s_polls w), None, EINTR)
  | RFail e :: r => (mk_source (s_rest w) r (s_polls w), None, e)
  end.

(** signal_safe_poll with timeout 0 (internal/util.cc:87-104): one turn of the outer loop; the
    inner one repeats poll while it is interrupted.  The result and the [errno] it leaves. *)
Fixpoint safe_poll (polls : list poll_event) (errno : Z) : Z * Z * list poll_event :=
  match polls with
  | [] => (1, errno, [])
  | PIntr :: r => safe_poll r EINTR
  | PFail e :: r => (-1, e, r)
  | PNone :: r => (0, errno, r)
  | PReady :: r => (1, errno, r)
  end.

(** internal/util.cc:119-128: the loop of signal_safe_read.  [got] is what is in the buffer; the
    result is the last [rc] ([None] is -1), [errno] and the buffer. *)
Fixpoint read_loop (fuel : nat) (w : source) (count : nat) (got : list Z) (errno : Z)
  : option (source * option nat * Z * list Z) :=
  match fuel with
  | O => None
  | S fuel =>
    let '(w, r, e) := sys_read w (count - length got) in
    let errno := match r with None => e | Some _ => errno end in
    let got := match r with Some b => got ++ b | None => got end in
    let rc := option_map (@length Z) r in
    match rc with
    | Some O => Some (w, rc, errno, got)
    | _ =>
      if Nat.ltb (length got) count && ((match rc with Some _ => true | None => false end) || (errno =? EINTR)) then
        let '(p, errno, polls) := safe_poll (s_polls w) errno in
        let w := mk_source (s_rest w) (s_reads w) polls in
        if (p =? 1) || Nat.eqb (length got) 0 then read_loop fuel w count got errno
        else Some (w, rc, errno, got)
      else Some (w, rc, errno, got)
    end
  end.

(** internal/util.cc:106-135: the result ([None] is -1) and what is in the
    buffer, whose length is [*bytes_read]. *)
Definition safe_read (w : source) (count : nat) : option (source * option nat * list Z) :=
  let? (w, rc, errno, got) := read_loop (length (s_reads w) + 3) w count [] 0 in
  Some (w, (match rc with None => if errno =? EINTR then Some (length got) else None | Some _ => Some (length got) end), got).

(** internal/util.cc:72-85: the descriptor is the bytes written so far.
    The result is the last [rc], [None] for -1, and [*bytes_written]. *)
Fixpoint safe_write (fuel : nat) (out : list Z) (events : list write_event) (buf : list Z) (total : nat)
  : option (list Z * option nat * nat) :=
  match fuel with
  | O => None
  | S fuel =>
    let ask := skipn total buf in
    let take k r :=
      let b := firstn k ask in
      let total := (total + length b)%nat in
      if Nat.ltb 0 (length b) && Nat.ltb total (length buf) then safe_write fuel (out ++ b) r buf total
      else Some (out ++ b, Some (length b), total) in
    match events with
    | [] => take (length ask) []
    | WTake k :: r => take k r
    | WIntr :: r => safe_write fuel out r buf total
    | WFail e :: r => if e =? EINTR then safe_write fuel out r buf total else Some (out, None, total)
    end
  end.
Definition signal_safe_write (out : list Z) (events : list write_event) (buf : list Z) : option (list Z * option nat * nat) :=
  safe_write (length events + 2) out events buf 0.

(** ** SafeCopyMemory *)

(** A chunk of memory is an address and a size; [mem a = None] if [a] is not mapped. *)
Definition k_max_iov : nat := 64.
Definition chunk_bytes (mem : Z -> option Z) (c : Z * nat) : list (option Z) := map mem (zseq (fst c) (snd c)).
(** process_vm_readv: all the bytes if all are mapped, else the number copied before the
    failure, of which only a bound is known: [part], or -1. *)
Definition vm_readv (mem : Z -> option Z) (part : Z) (chunks : list (Z * nat)) : list Z * Z :=
  let bytes := flat_map (chunk_bytes mem) chunks in
  if forallb (fun b => match b with Some _ => true | None => false end) bytes
  then (map (fun b => match b with Some v => v | None => 0 end) bytes, Z.of_nat (length bytes))
  else ([], if (0 <=? part) && (part <? Z.of_nat (length bytes)) then part else -1).
(** internal/util.cc:137-174: what was written to [dst] and the result. *)
Fixpoint copy_batches (fuel : nat) (mem : Z -> option Z) (part : Z) (chunks : list (Z * nat)) (dst : list Z) : option (list Z * bool) :=
  match fuel with
  | O => None
  | S fuel =>
    match chunks with
    | [] => Some (dst, true)
    | _ =>
      let batch := firstn k_max_iov chunks in
      let (b, n) := vm_readv mem part batch in
      if n =? zsum (map (fun c => Z.of_nat (snd c)) batch) then copy_batches fuel mem part (skipn k_max_iov chunks) (dst ++ b)
      else Some (dst, false)
    end
  end.
Definition safe_copy (mem : Z -> option Z) (part : Z) (chunks : list (Z * nat)) (null : bool) : option (list Z * bool) :=
  if null || (match chunks with [] => true | _ => false end) then Some ([], false)
  else copy_batches (S (length chunks)) mem part chunks [].

(** ** /proc/self/status *)

Record mem_stats := mk_stats { m_vss : Z; m_rss : Z; m_shared : Z; m_code : Z; m_data : Z; m_vmpte : Z; m_seen : Z }.
Definition stats0 : mem_stats := mk_stats 0 0 0 0 0 0 0.
(** MemoryStats::kBufferSize, internal/memory_stats.h:34. *)
Definition stat_buf : nat := 1024.
Definition ch_colon : Z := 58.
(** The names, and " kB". *)
Definition n_VmSize : list Z := [86; 109; 83; 105; 122; 101].
Definition n_VmRSS : list Z := [86; 109; 82; 83; 83].
Definition n_RssFile : list Z := [82; 115; 115; 70; 105; 108; 101].
Definition n_RssShmem : list Z := [82; 115; 115; 83; 104; 109; 101; 109].
Definition n_VmExe : list Z := [86; 109; 69; 120; 101].
Definition n_VmData : list Z := [86; 109; 68; 97; 116; 97].
Definition n_VmStk : list Z := [86; 109; 83; 116; 107].
Definition n_VmPTE : list Z := [86; 109; 80; 84; 69].
Definition n_kB : list Z := [32; 107; 66].

Fixpoint eqs (a b : list Z) : bool :=
  match a, b with [], [] => true | x :: a, y :: b => (x =? y) && eqs a b | _, _ => false end.
(** absl::EndsWith. *)
Definition ends_with (l suffix : list Z) : bool := eqs (skipn (length l - length suffix) l) suffix.

(** absl::SimpleAtoi for [size_t]: white space is stripped, a plus sign is allowed, digits,
    and the value must fit 64 bits. *)
Definition atou (l : list Z) : option Z :=
  let? v := (match strip l with
             | c :: r => if c =? 43 then digits_value r else digits_value (c :: r)
             | [] => None
             end) in
  if v <? 2 ^ 64 then Some v else None.

(** internal/memory_stats.cc:83-124: one line.  A [size_t] stored in an
    [int64_t] is not wrapped here: values are below 2^63 in the theorems. *)
Definition stat_line (line : list Z) (m : mem_stats) : mem_stats :=
  match find_ch ch_colon line with
  | None => m
  | Some colon =>
    let key := firstn colon line in
    let rest := strip (skipn (S colon) line) in
    let is_kb := ends_with rest n_kB in
    let rest := if is_kb then firstn (length rest - length n_kB) rest else rest in
    match atou rest with
    | None => m
    | Some v =>
      let val := if is_kb then wrap64 (v * 1024) else v in
      let 'mk_stats vss rss shared code data vmpte seen := m in
      if eqs key n_VmSize then mk_stats val rss shared code data vmpte (Z.lor seen 1)
      else if eqs key n_VmRSS then mk_stats vss val shared code data vmpte (Z.lor seen 2)
      else if eqs key n_RssFile || eqs key n_RssShmem then mk_stats vss rss (shared + val) code data vmpte (Z.lor seen 4)
      else if eqs key n_VmExe then mk_stats vss rss shared val data vmpte (Z.lor seen 8)
      else if eqs key n_VmData || eqs key n_VmStk then mk_stats vss rss shared code (data + val) vmpte (Z.lor seen 16)
      else if eqs key n_VmPTE then mk_stats vss rss shared code data val (Z.lor seen 32)
      else m
    end
  end.

(** internal/memory_stats.cc:74-125: the complete lines of the buffer; what is
    left of it. *)
Fixpoint stat_lines (fuel : nat) (contents : list Z) (m : mem_stats) : list Z * mem_stats :=
  match fuel with
  | O => (contents, m)
  | S fuel =>
    match find_ch ch_newline contents with
    | None => (contents, m)
    | Some nl => stat_lines fuel (skipn (S nl) contents) (stat_line (firstn nl contents) m)
    end
  end.

(** internal/memory_stats.cc:68-136: the reads. *)
Fixpoint stat_loop (fuel : nat) (w : source) (buf : list Z) (m : mem_stats) : option mem_stats :=
  match fuel with
  | O => None
  | S fuel =>
    let? (w, rc, got) := safe_read w (stat_buf - length buf) in
    match rc with
    | None | Some O => Some m
    | Some _ =>
      let (rest, m) := stat_lines stat_buf (buf ++ got) m in
      stat_loop fuel w (if Nat.eqb (length rest) stat_buf then [] else rest) m
    end
  end.

(** GetMemoryStats, internal/memory_stats.cc:59-139 and 141-156. *)
Definition get_memory_stats (w : source) : option (mem_stats * bool) :=
  let? m := stat_loop (S (length (s_rest w))) w [] stats0 in
  Some (m, m_seen m =? 63).
