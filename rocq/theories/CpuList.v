(** Model of the CPU list parser, tcmalloc/internal/sysinfo.cc.  Characters are
    their codes; the set of CPUs is its characteristic function. *)
From Verif Require Import Base.

Definition k_max_cpus : Z := 2048.   (* internal/cpu_utils.h:30 *)
Definition buf_size : nat := 16.     (* internal/sysinfo.cc:48 *)
Definition ch_newline : Z := 10.
Definition ch_comma : Z := 44.
Definition ch_dash : Z := 45.

(** internal/sysinfo.cc:40. *)
Definition in_bounds (cpu : Z) : bool := (0 <=? cpu) && (cpu <? k_max_cpus).

(** absl::SimpleAtoi for [int]: white space is stripped, a sign is allowed, at
    least one digit, no other character, and the value must fit 32 bits. *)
Definition is_space (c : Z) : bool := ((9 <=? c) && (c <=? 13)) || (c =? 32).
Definition is_digit (c : Z) : bool := (48 <=? c) && (c <=? 57).
Fixpoint lstrip (l : list Z) : list Z :=
  match l with c :: r => if is_space c then lstrip r else l | [] => [] end.
Definition strip (l : list Z) : list Z := rev (lstrip (rev (lstrip l))).
Definition value (l : list Z) : Z := fold_left (fun v c => 10 * v + (c - 48)) l 0.
Definition digits_value (l : list Z) : option Z :=
  match l with [] => None | _ => if forallb is_digit l then Some (value l) else None end.
Definition atoi (l : list Z) : option Z :=
  let? v := (match strip l with
             | c :: r => if c =? 43 then digits_value r
                         else if c =? 45 then let? v := digits_value r in Some (- v)
                         else digits_value (c :: r)
             | [] => None
             end) in
  if (- 2 ^ 31 <=? v) && (v <? 2 ^ 31) then Some v else None.

(** absl::string_view::find of one character. *)
Fixpoint find_ch (c : Z) (l : list Z) : option nat :=
  match l with
  | [] => None
  | x :: l => if x =? c then Some O else option_map S (find_ch c l)
  end.
(** [a < b] where [None] is npos. *)
Definition pos_lt (a b : option nat) : bool :=
  match a, b with Some a, Some b => Nat.ltb a b | Some _, None => true | None, _ => false end.

Definition cpuset := Z -> bool.
Definition set_cpu (s : cpuset) (c : Z) : cpuset := fun x => (x =? c) || s x.
(** internal/sysinfo.cc:90. *)
Definition set_range (s : cpuset) (a b : Z) : cpuset := fun x => ((a <=? x) && (x <=? b)) || s x.

(** What one call of [read] returns: up to [n] of the remaining bytes; the kernel
    chooses how many by [want] (a negative [want] is an error). *)
Definition read_bytes (rest : list Z) (n : nat) (want : Z) : list Z :=
  firstn (Nat.min n (Nat.max 1 (Z.to_nat want))) rest.

(** internal/sysinfo.cc:69-99: one parse of the buffer [cur]; [eof] is [rc == 0].
    Returns the number of characters consumed. *)
Definition parse_buf (cur : list Z) (eof : bool) (from : Z) (s : cpuset) : option (nat * Z * cpuset) :=
  let dash := find_ch ch_dash cur in
  let comma := find_ch ch_comma cur in
  if pos_lt dash comma then
    let d := match dash with Some d => d | None => O end in
    let? f := atoi (firstn d cur) in
    if in_bounds f then Some (S d, f, s) else None
  else if (match comma with Some _ => true | None => false end) || eof then
    let? cpu := atoi (match comma with Some c => firstn c cur | None => cur end) in
    if in_bounds cpu then
      let used := match comma with Some c => S c | None => length cur end in
      if from =? -1 then Some (used, from, set_cpu s cpu) else Some (used, -1, set_range s from cpu)
    else None
  else Some (O, from, s).

(** internal/sysinfo.cc:52-103.  [chunk i] is what the kernel does at the [i]-th read; the
    outer [None] is running out of fuel, the inner one is [nullopt]. *)
Fixpoint parse_loop (fuel : nat) (chunk : nat -> Z) (i : nat) (rest carry : list Z) (from : Z) (s : cpuset)
  : option (option cpuset) :=
  match fuel with
  | O => None
  | S fuel =>
    if chunk i <? 0 then Some None
    else
      let got := read_bytes rest (buf_size - length carry) (chunk i) in
      let rest := skipn (length got) rest in
      let cur := carry ++ got in
      let eof := match got with [] => true | _ => false end in
      if eof && (match cur with [] => true | _ => false end) then Some (Some s)
      else if eof && (match cur with [c] => c =? ch_newline | _ => false end) then Some (Some s)
      else
        match parse_buf cur eof from s with
        | None => Some None
        | Some (used, from, s) => parse_loop fuel chunk (S i) rest (skipn used cur) from s
        end
  end.

(** internal/sysinfo.cc:43-106. *)
Definition parse_cpulist (chunk : nat -> Z) (input : list Z) : option (option cpuset) :=
  parse_loop (2 * length input + 1) chunk 0 input [] (-1) (fun _ => false).

(** internal/sysinfo.cc:110-139 after the file is read. *)
Definition num_possible (s : cpuset) : option Z :=
  let m := fold_left (fun (m : option Z) i => if s i then Some (Z.max i (match m with Some m => m | None => -1 end)) else m)
             (zseq 0 (Z.to_nat k_max_cpus)) None in
  match m with Some m => Some (m + 1) | None => None end.
