(** Model of the iterator over /proc/thread-self/maps, tcmalloc/internal/proc_maps.cc and
    proc_maps.h.  Bytes are their codes. *)
From Verif Require Import Base CpuList SafeIo.

(** ** sscanf *)

Fixpoint span_while (p : Z -> bool) (l : list Z) : list Z * list Z :=
  match l with
  | [] => ([], [])
  | c :: r => if p c then let (a, b) := span_while p r in (c :: a, b) else ([], l)
  end.
(** isspace in the C locale. *)
Definition is_space (c : Z) : bool := ((9 <=? c) && (c <=? 13)) || (c =? 32).
Definition is_dec (c : Z) : bool := (48 <=? c) && (c <=? 57).
Definition is_hex (c : Z) : bool := is_dec c || ((97 <=? c) && (c <=? 102)) || ((65 <=? c) && (c <=? 70)).
Definition hex_digit (c : Z) : Z :=
  if is_dec c then c - 48 else if (97 <=? c) && (c <=? 102) then c - 87 else c - 55.
Definition num_value (base : Z) (l : list Z) : Z := fold_left (fun v c => v * base + hex_digit c) l 0.
Definition skip_space (l : list Z) : list Z := snd (span_while is_space l).

(** A conversion to a number: white space is skipped, at least one digit.  Simplified: no sign
    and no 0x prefix, which the kernel does not write. *)
Definition scan_num (p : Z -> bool) (base : Z) (l : list Z) : option (Z * list Z) :=
  let (d, r) := span_while p (skip_space l) in
  match d with [] => None | _ => Some (num_value base d, r) end.
(** %llx saturates; %x into an [int] (major, minor) keeps 32 bits; %lld saturates. *)
Definition scan_llx (l : list Z) : option (Z * list Z) :=
  let? (v, r) := scan_num is_hex 16 l in Some (Z.min v (2 ^ 64 - 1), r).
Definition scan_x (l : list Z) : option (Z * list Z) :=
  let? (v, r) := scan_num is_hex 16 l in Some (Z.min v (2 ^ 64 - 1) mod 2 ^ 32, r).
Definition scan_lld (l : list Z) : option (Z * list Z) :=
  let? (v, r) := scan_num is_dec 10 l in Some (Z.min v (2 ^ 63 - 1), r).
Definition scan_lit (c : Z) (l : list Z) : option (list Z) :=
  match l with x :: r => if x =? c then Some r else None | [] => None end.
(** %4s: up to four characters that are not white space. *)
Definition scan_4s (l : list Z) : option (list Z * list Z) :=
  let l := skip_space l in
  let (d, _) := span_while (fun c => negb (is_space c)) (firstn 4 l) in
  match d with [] => None | _ => Some (d, skipn (length d) l) end.

Record map_entry := mk_entry { e_start : Z; e_end : Z; e_flags : list Z; e_offset : Z;
  e_major : Z; e_minor : Z; e_inode : Z; e_name : list Z }.

(** A C string ends at its first NUL. *)
Definition c_string (l : list Z) : list Z := fst (span_while (fun c => negb (c =? 0)) l).

(** internal/proc_maps.cc:110-141: sscanf with "%llx-%llx %4s %llx %x:%x %lld %n"; the file name is what
    follows, empty if there is none. *)
Definition scan_line (line : list Z) : option map_entry :=
  let l := c_string line in
  let? (st, l) := scan_llx l in
  let? l := scan_lit 45 l in
  let? (en, l) := scan_llx l in
  let? (fl, l) := scan_4s (skip_space l) in
  let? (off, l) := scan_llx (skip_space l) in
  let? (maj, l) := scan_x (skip_space l) in
  let? l := scan_lit 58 l in
  let? (mino, l) := scan_x l in
  let? (ino, l) := scan_lld (skip_space l) in
  Some (mk_entry st en fl off maj mino ino (skip_space l)).

(** ** The buffer *)

(** Buffer::kBufSize - 1, internal/proc_maps.h:32-35: PATH_MAX + 1024 - 1. *)
Definition pm_cap : nat := 5119.

(** The buffer between two lines: [pm_rest] is the text in [nextline_, etext_) and [pm_done] is
    nextline_ - ibuf_.  The lines before it are not looked at again. *)
Record pm_state := mk_pm { pm_done : nat; pm_rest : list Z; pm_src : source }.
(** The constructor, internal/proc_maps.cc:34-58 (open succeeded). *)
Definition pm_init (w : source) : pm_state := mk_pm 0 [] w.

(** internal/proc_maps.cc:89-97: reads until the buffer is full, the file ends or a read fails;
    interrupted reads are repeated (internal/util.h:33-39). *)
Fixpoint pm_fill (fuel : nat) (w : source) (text : list Z) : option (source * list Z) :=
  match fuel with
  | O => None
  | S fuel =>
    if Nat.ltb (length text) pm_cap then
      let '(w, r, e) := sys_read w (pm_cap - length text) in
      match r with
      | None => if e =? EINTR then pm_fill fuel w text else Some (w, text)
      | Some [] => Some (w, text)
      | Some b => pm_fill fuel w (text ++ b)
      end
    else Some (w, text)
  end.

(** internal/proc_maps.cc:74-108: the next line and the state after it.  The sentinel written at
    [etext_] ends a line without newline. *)
Definition pm_line (s : pm_state) : option (list Z * pm_state) :=
  match find_ch ch_newline (pm_rest s) with
  | Some k => Some (firstn k (pm_rest s), mk_pm (pm_done s + S k) (skipn (S k) (pm_rest s)) (pm_src s))
  | None =>
    let? (w, text) := pm_fill (length (s_reads (pm_src s)) + 3) (pm_src s) (pm_rest s) in
    match find_ch ch_newline text with
    | Some k => Some (firstn k text, mk_pm (S k) (skipn (S k) text) w)
    | None => Some (text, mk_pm (length text) [] w)
    end
  end.

(** NextExt, internal/proc_maps.cc:70-148: [None] in the result is false. *)
Fixpoint pm_next_loop (fuel : nat) (s : pm_state) : option (pm_state * option map_entry) :=
  match fuel with
  | O => None
  | S fuel =>
    let? (line, s) := pm_line s in
    match scan_line line with
    | Some e => Some (s, Some e)
    | None => if Nat.ltb 0 (pm_done s + length (pm_rest s)) then pm_next_loop fuel s else Some (s, None)
    end
  end.
Definition pm_next (s : pm_state) : option (pm_state * option map_entry) :=
  pm_next_loop (S (length (pm_rest s) + length (s_rest (pm_src s)) + 1)) s.

(** The results of [n] calls. *)
Fixpoint pm_calls (n : nat) (s : pm_state) : option (list (option map_entry)) :=
  match n with
  | O => Some []
  | S n => let? (s, e) := pm_next s in let? l := pm_calls n s in Some (e :: l)
  end.
