(** Model of what New and Delete hooks are passed (malloc_hook.h:36-82): the entry points
    of FrontApi.v with every call announced (when calls are announced is property C66).
    Simplification: the pointer is checked only by looking up the live block, and the
    class of a sized delete is that of the block (property C08). *)
From Verif Require Import Base SizeMap FrontApi.

(** malloc_hook.h:37-45 NewInfo and malloc_hook.h:57-66 DeleteInfo. *)
Inductive hinfo :=
| INew (ptr requested allocated : Z)
| IDel (ptr : Z) (deallocated : option Z) (allocated : Z).

(** tcmalloc.cc:1215-1224 and tcmalloc.cc:1257-1267: a failed allocation is not
    announced; size-returning calls pass the capacity as requested size. *)
Definition h_alloc (c : cfg) (m : sizemap) (p : policy) (ret : bool) (w : world) (l : list hinfo) (size : Z) (o : outcome)
  : option (Z * Z * world * list hinfo) :=
  let? (a, n, w) := w_alloc c m p ret w size o in
  Some (a, n, w, if a =? 0 then l else INew a (if ret then n else size) n :: l).

(** tcmalloc.cc:576-580 and tcmalloc.cc:705-708; [sz] is the size passed to a sized delete. *)
Definition h_free (m : sizemap) (w : world) (l : list hinfo) (ptr : Z) (sz : option Z) : option (world * list hinfo) :=
  if ptr =? 0 then Some (w, l)
  else
    let? b := heap w ptr in
    let? w := w_free w ptr in
    Some (w, IDel ptr sz (get_size m b) :: l).

(** tcmalloc.cc:1570-1634 do_realloc with its hooks (as FrontApi.do_realloc otherwise). *)
Definition h_do_realloc c m numa (w : world) (l : list hinfo) (old_ptr new_size : Z) (ws : bool) (o : outcome)
  : option (Z * world * list hinfo) :=
  let? b := heap w old_ptr in
  let '(old_size, was_sampled) := get_size_and_sampled m b in
  let will_sample := (new_size <=? max_size c) && ws in
  let part := partition_from_pointer c old_ptr in
  let? actual :=
    match get_size_class c m (in_partition c (malloc_policy c numa) part) new_size with
    | Small cl => Some (class_to_size m cl)
    | NotSmall => Some (length_in_bytes c (bytes_to_length_ceil c new_size))
    | LookupUB => None
    end in
  if negb (actual =? old_size) || was_sampled || will_sample || is_guarded b then
    let? (a, _, w, l) := h_alloc c m (in_partition_with_token c (malloc_policy c numa) part) false w l new_size o in
    if a =? 0 then Some (0, w, l)
    else
      let w := write_data w a (fun d => mem_copy d (b_data b) (if old_size <? new_size then old_size else new_size)) in
      let? (w, l) := h_free m w l old_ptr None in
      Some (a, w, l)
  else Some (old_ptr, w, INew old_ptr new_size old_size :: IDel old_ptr None old_size :: l).

(** tcmalloc.cc:1636-1650. *)
Definition h_realloc c m numa (w : world) (l : list hinfo) (ptr size : Z) (ws : bool) (o : outcome)
  : option (Z * world * list hinfo) :=
  if ptr =? 0 then let? (a, _, w, l) := h_alloc c m (malloc_policy c numa) false w l size o in Some (a, w, l)
  else if size =? 0 then let? (w, l) := h_free m w l ptr None in Some (0, w, l)
  else h_do_realloc c m numa w l ptr size ws o.
