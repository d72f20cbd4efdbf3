(** Model of GetBuildId (tcmalloc/internal/profile_builder.cc): the build id of a loaded binary is looked for in its PT_NOTE segments.

    A segment is the list of the p_filesz bytes in it and its alignment; a read outside those bytes is a fault.  The build id is the list of its
    bytes: that it is printed in hexadecimal is not modelled (the text is empty exactly if there are no bytes). *)
From Verif Require Import Base.

Record segment := Segment { sg_note : bool; sg_bytes : list Z; sg_align : Z }.

(** The [n] bytes at offset [off]. *)
Definition bytes_at (seg : list Z) (off n : Z) : option (list Z) :=
  if (0 <=? off) && (0 <=? n) && (off + n <=? Z.of_nat (length seg))
  then Some (firstn (Z.to_nat n) (skipn (Z.to_nat off) seg)) else None.

(** A number whose least byte is first. *)
Fixpoint le (l : list Z) : Z := match l with [] => 0 | b :: l => b + 256 * le l end.
Definition word_at (seg : list Z) (off : Z) : option Z :=
  match bytes_at seg off 4 with Some l => Some (le l) | None => None end.

(** ElfW(Word) arithmetic. *)
Definition wrap32 (x : Z) : Z := x mod 2 ^ 32.
(** sizeof(ElfW(Nhdr)): n_namesz, n_descsz and n_type. *)
Definition nhdr_size : Z := 12.
Definition nt_gnu_build_id : Z := 3.
Definition gnu_name : list Z := [71; 78; 85; 0].

(** desc_start and size, internal/profile_builder.cc:253-254 and following.  sizeof is a size_t, so the first sum has 64 bits; -align is a Word. *)
Definition desc_start (align namesz : Z) : Z := wrap32 (Z.land (wrap64 (nhdr_size + namesz + align - 1)) (wrap32 (- align))).
Definition note_size (align namesz descsz : Z) : Z :=
  wrap32 (desc_start align namesz + Z.land (wrap32 (descsz + align - 1)) (wrap32 (- align))).

(** Corrupt PT_NOTE, internal/profile_builder.cc:257-264. *)
Definition corrupt (align namesz descsz left : Z) : bool :=
  (wrap32 (- align) <=? namesz) || (wrap32 (- align) <=? descsz) || (desc_start align namesz <? nhdr_size) ||
  (note_size align namesz descsz <? desc_start align namesz) || (left <? note_size align namesz descsz).

(** Fault: a read outside the segment.  Long: more steps than [fuel].  Repeated: return "".  Found: the build id so far. *)
Inductive outcome := Fault | Long | Repeated | Found (r : list Z).

(** The loop over the notes of a segment, internal/profile_builder.cc:244-280. *)
Fixpoint scan_notes (fuel : nat) (seg : list Z) (align off : Z) (result : list Z) : outcome :=
  match fuel with
  | O => Long
  | S fuel =>
      let last := Z.of_nat (length seg) in
      if off <? last then
        if last <? off + nhdr_size then Found result
        else
          match word_at seg off, word_at seg (off + 4), word_at seg (off + 8) with
          | Some namesz, Some descsz, Some type =>
              if corrupt align namesz descsz (last - off) then Found result
              else
                let next := off + note_size align namesz descsz in
                if (type =? nt_gnu_build_id) && (namesz =? 4) then
                  match bytes_at seg (off + nhdr_size) 4 with
                  | None => Fault
                  | Some name =>
                      if list_eq_dec Z.eq_dec name gnu_name then
                        match result with
                        | _ :: _ => Repeated
                        | [] => match bytes_at seg (off + desc_start align namesz) descsz with
                                | None => Fault
                                | Some d => scan_notes fuel seg align next d
                                end
                        end
                      else scan_notes fuel seg align next result
                  end
                else scan_notes fuel seg align next result
          | _, _, _ => Fault
          end
      else Found result
  end.

(** GetBuildId, internal/profile_builder.cc:226-284: the loop over the segments.  p_align is cut to a Word. *)
Fixpoint scan_segments (segs : list segment) (result : list Z) : outcome :=
  match segs with
  | [] => Found result
  | s :: segs =>
      if sg_note s then
        match scan_notes (S (length (sg_bytes s))) (sg_bytes s) (wrap32 (sg_align s)) 0 result with
        | Found r => scan_segments segs r
        | o => o
        end
      else scan_segments segs result
  end.
Definition get_build_id (segs : list segment) : outcome :=
  match scan_segments segs [] with Repeated => Found [] | o => o end.
