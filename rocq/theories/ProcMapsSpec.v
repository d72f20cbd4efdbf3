(** Specification for C61: the lines of /proc/thread-self/maps. *)
From Verif Require Import Base SafeIo ProcMaps.

(** The text of a number: its digits in base [b], most significant first, maybe with leading
    zeros. *)
Definition digit_char (d : Z) : Z := if d <? 10 then 48 + d else 87 + d.
Definition written (b v : Z) (s : list Z) : Prop :=
  exists ds, ds <> [] /\ Forall (fun d => 0 <= d < b) ds /\ v = fold_left (fun a d => a * b + d) ds 0 /\ s = map digit_char ds.

(** The line of a mapping, as in
    "7f00-7f80 r-xp 0000 08:01 1234     /bin/x"; there may be no name and no blanks then. *)
Definition map_line (e : map_entry) (line : list Z) : Prop :=
  exists s1 s2 s3 s4 s5 s6 blanks,
    line = s1 ++ [45] ++ s2 ++ [32] ++ e_flags e ++ [32] ++ s3 ++ [32] ++ s4 ++ [58] ++ s5 ++ [32] ++ s6 ++ blanks ++ e_name e /\
    written 16 (e_start e) s1 /\ written 16 (e_end e) s2 /\ written 16 (e_offset e) s3 /\
    written 16 (e_major e) s4 /\ written 16 (e_minor e) s5 /\ written 10 (e_inode e) s6 /\
    length (e_flags e) = 4%nat /\ Forall (fun c => In c [114; 119; 120; 112; 115; 45]) (e_flags e) /\
    Forall (fun c => c = 32) blanks /\
    match e_name e with [] => True | c :: r => blanks <> [] /\ c <> 32 /\ ~ (9 <= c <= 13) end /\
    ~ In 10 (e_name e) /\ ~ In 0 (e_name e).
Definition entry_ok (e : map_entry) : Prop :=
  e_start e < 2 ^ 64 /\ e_end e < 2 ^ 64 /\ e_offset e < 2 ^ 64 /\ e_major e < 2 ^ 32 /\ e_minor e < 2 ^ 32 /\ e_inode e < 2 ^ 63.

(** Signals may interrupt reads and reads may be short, but none fails. *)
Definition reads_ok (reads : list read_event) : Prop := forall e, In (RFail e) reads -> e = EINTR.

(** A file of lines, the last maybe without newline. *)
Definition file_text (lines : list (list Z)) (last : list Z) : list Z := flat_map (fun l => l ++ [10]) lines ++ last.
Definition short_line (l : list Z) : Prop := ~ In 10 l /\ (length l < 5119)%nat.

(** What [n] calls return if the mappings are [es]: these, once each and in order, and then
    false. *)
Definition results (n : nat) (es : list map_entry) : list (option map_entry) :=
  firstn n (map Some es ++ repeat None n).
