(** Model of tcmalloc/pagemap.h and pagemap.cc: the three-level radix tree that
    maps a page to the span that owns it, to its size class and to the tracker of
    its hugepage.  Span pointers, tracker pointers and classes are [Z]; 0 is the
    null pointer.  A dereference of a null node or leaf is [None] ([TC_ASSERT]s
    are not compiled into release builds, hence are not tests here).
    [bytes_used_] is left out. *)
From Verif Require Import Base.

(** pagemap.h:88 and the constants after it; [pm_bits] is
    kAddressBits - kPageShift (pagemap.h:452). *)
Record pmcfg := PmCfg { pm_bits : Z; pm_page_shift : Z }.
Definition huge_page_shift : Z := 21.
Definition leaf_bits (c : pmcfg) : Z := (pm_bits c + 2) / 3.
Definition mid_bits (c : pmcfg) : Z := (pm_bits c + 2) / 3.
Definition root_bits (c : pmcfg) : Z := pm_bits c - leaf_bits c - mid_bits c.
Definition leaf_length (c : pmcfg) : Z := 2 ^ leaf_bits c.
Definition mid_length (c : pmcfg) : Z := 2 ^ mid_bits c.
Definition root_length (c : pmcfg) : Z := 2 ^ root_bits c.
Definition leaf_huge_bits (c : pmcfg) : Z := leaf_bits c + pm_page_shift c - huge_page_shift.

(** The static_asserts pagemap.h:93 and
    pagemap.h:100; pages are not
    larger than hugepages. *)
Definition pm_ok (c : pmcfg) : Prop :=
  0 < root_bits c /\ 0 < leaf_bits c /\ 0 <= pm_page_shift c <= huge_page_shift /\
  huge_page_shift <= leaf_bits c + pm_page_shift c /\ pm_bits c <= 62.

(** pagemap.h:58-77. *)
Definition pack (span sc : Z) : Z := Z.lor (Z.shiftl sc 48) span.
Definition packed_span (v : Z) : Z := Z.land v (2 ^ 48 - 1).
Definition packed_class (v : Z) : Z := Z.shiftr v 48.

(** pagemap.h:105-121. *)
Record leaf := Leaf {
  l_class : Z -> Z;
  l_packed : Z -> Z;
  l_huge : Z -> Z
}.
Definition leaf0 : leaf := Leaf (fun _ => 0) (fun _ => 0) (fun _ => 0).

(** pagemap.h:123-126 and root_. *)
Notation node := (Z -> option leaf).
Notation pmap := (Z -> option node).
Definition node0 : node := fun _ => None.
Definition pm0 : pmap := fun _ => None.

(** The indices i1, i2, i3 of a page number (e.g. pagemap.h:138). *)
Definition i1 (c : pmcfg) (k : Z) : Z := Z.shiftr k (leaf_bits c + mid_bits c).
Definition i2 (c : pmcfg) (k : Z) : Z := Z.land (Z.shiftr k (leaf_bits c)) (mid_length c - 1).
Definition i3 (c : pmcfg) (k : Z) : Z := Z.land k (leaf_length c - 1).

(** root_[i1]->leafs[i2], when both pointers are non-null. *)
Definition leaf_of (c : pmcfg) (m : pmap) (k : Z) : option leaf :=
  match m (i1 c k) with Some n => n (i2 c k) | None => None end.

(** pagemap.h:137-147. *)
Definition pm_get (c : pmcfg) (m : pmap) (k : Z) : Z :=
  if 0 <? Z.shiftr k (pm_bits c) then 0
  else match leaf_of c m k with
       | None => 0
       | Some l => packed_span (l_packed l (i3 c k))
       end.

(** pagemap.h:176-206 get_existing_with_sizeclass. *)
Definition pm_get_with_class (check_bounds : bool) (c : pmcfg) (m : pmap) (k : Z) : option (Z * Z) :=
  if check_bounds && (0 <? Z.shiftr k (pm_bits c)) then Some (0, 0)
  else match leaf_of c m k with
       | None => if check_bounds then Some (0, 0) else None
       | Some l => let v := l_packed l (i3 c k) in Some (packed_span v, packed_class v)
       end.

(** pagemap.h:210-219. *)
Definition pm_get_existing (c : pmcfg) (m : pmap) (k : Z) : option Z :=
  match leaf_of c m k with
  | None => None
  | Some l => Some (packed_span (l_packed l (i3 c k)))
  end.

(** pagemap.h:224-236. *)
Definition pm_sizeclass (c : pmcfg) (m : pmap) (k : Z) : Z :=
  if 0 <? Z.shiftr k (pm_bits c) then 0
  else match leaf_of c m k with
       | None => 0
       | Some l => l_class l (i3 c k)
       end.

(** Store into the leaf of [k]. *)
Definition with_leaf (c : pmcfg) (m : pmap) (k : Z) (f : leaf -> leaf) : option pmap :=
  match m (i1 c k) with
  | None => None
  | Some n => match n (i2 c k) with
              | None => None
              | Some l => Some (upd m (i1 c k) (Some (upd n (i2 c k) (Some (f l)))))
              end
  end.

(** pagemap.h:238-249. *)
Definition pm_set (c : pmcfg) (m : pmap) (k s : Z) : option pmap :=
  with_leaf c m k (fun l => Leaf (l_class l) (upd (l_packed l) (i3 c k) (pack s 0)) (l_huge l)).

(** pagemap.h:251-259. *)
Definition pm_set_with_class (c : pmcfg) (m : pmap) (k s sc : Z) : option pmap :=
  with_leaf c m k (fun l => Leaf (upd (l_class l) (i3 c k) sc) (upd (l_packed l) (i3 c k) (pack s sc)) (l_huge l)).

(** pagemap.h:261-267: the packed copy keeps the class. *)
Definition pm_clear_class (c : pmcfg) (m : pmap) (k : Z) : option pmap :=
  with_leaf c m k (fun l => Leaf (upd (l_class l) (i3 c k) 0) (l_packed l) (l_huge l)).

(** The index into the hugepage array. *)
Definition i_huge (c : pmcfg) (k : Z) : Z := Z.shiftr (i3 c k) (leaf_bits c - leaf_huge_bits c).

(** pagemap.h:269-279. *)
Definition pm_get_hugepage (c : pmcfg) (m : pmap) (k : Z) : option Z :=
  match leaf_of c m k with None => None | Some l => Some (l_huge l (i_huge c k)) end.

(** pagemap.h:291-297. *)
Definition pm_set_hugepage (c : pmcfg) (m : pmap) (k v : Z) : option pmap :=
  with_leaf c m k (fun l => Leaf (l_class l) (l_packed l) (upd (l_huge l) (i_huge c k) v)).

(** pagemap.h:281-289. *)
Definition pm_has_leaf (c : pmcfg) (m : pmap) (k : Z) : bool :=
  if 0 <? Z.shiftr k (pm_bits c) then false
  else if root_length c <=? i1 c k then false
  else match m (i1 c k) with
       | None => false
       | Some n => match n (i2 c k) with Some _ => true | None => false end
       end.

(** pagemap.h:299-329.  [al i] says whether the [i]-th
    metadata allocation succeeds.  [last] is start + n - 1. *)
Fixpoint ensure_loop (fuel : nat) (c : pmcfg) (al : Z -> bool) (i : Z) (m : pmap) (key last : Z)
  : option (bool * pmap) :=
  if key <=? last then
    match fuel with
    | O => None
    | S fuel =>
      if root_length c <=? i1 c key then Some (false, m)
      else
        let '(ok, i, m) :=
          match m (i1 c key) with
          | Some _ => (true, i, m)
          | None => if al i then (true, i + 1, upd m (i1 c key) (Some node0)) else (false, i, m)
          end in
        if negb ok then Some (false, m) else
        let '(ok, i, m) :=
          match m (i1 c key) with
          | None => (false, i, m)
          | Some n =>
            match n (i2 c key) with
            | Some _ => (true, i, m)
            | None => if al i then (true, i + 1, upd m (i1 c key) (Some (upd n (i2 c key) (Some leaf0))))
                      else (false, i, m)
            end
          end in
        if negb ok then Some (false, m) else
        ensure_loop fuel c al i m (wrap64 (Z.shiftl (Z.shiftr key (leaf_bits c) + 1) (leaf_bits c))) last
    end
  else Some (true, m).
Definition pm_ensure (c : pmcfg) (al : Z -> bool) (m : pmap) (start n : Z) : option (bool * pmap) :=
  let last := wrap64 (start + n - 1) in
  ensure_loop (Z.to_nat (last / leaf_length c - start / leaf_length c + 1)) c al 0 m start last.

(** pagemap.cc:35-42 on a span of pages
    [first..last]; [cnt] pages are left. *)
Fixpoint pm_register (cnt : nat) (c : pmcfg) (m : pmap) (p s sc : Z) : option pmap :=
  match cnt with
  | O => Some m
  | S cnt => let? m := pm_set_with_class c m p s sc in pm_register cnt c m (p + 1) s sc
  end.
(** pagemap.cc:44-51. *)
Fixpoint pm_unregister (cnt : nat) (c : pmcfg) (m : pmap) (p : Z) : option pmap :=
  match cnt with
  | O => Some m
  | S cnt => let? m := pm_clear_class c m p in pm_unregister cnt c m (p + 1)
  end.

(** The loop [for (; i < len; ++i)] that returns the first result of [p]. *)
Fixpoint first_from (n : nat) (p : Z -> option Z) (i : Z) : option Z :=
  match n with
  | O => None
  | S n => match p i with Some r => Some r | None => first_from n p (i + 1) end
  end.

(** pagemap.h:150-166.  The starting indices of
    the inner loops apply to the first iteration of the enclosing loop only. *)
Definition pm_next (c : pmcfg) (m : pmap) (k : Z) : option Z :=
  let nk := wrap64 (k + 1) in
  let a := i1 c nk in let b := i2 c nk in let d := i3 c nk in
  first_from (Z.to_nat (root_length c - a)) (fun j1 =>
    let s2 := if j1 =? a then b else 0 in
    match m j1 with
    | None => None
    | Some n =>
      first_from (Z.to_nat (mid_length c - s2)) (fun j2 =>
        let s3 := if (j1 =? a) && (j2 =? b) then d else 0 in
        match n j2 with
        | None => None
        | Some l =>
          first_from (Z.to_nat (leaf_length c - s3)) (fun j3 =>
            if packed_span (l_packed l j3) =? 0 then None
            else Some (Z.lor (Z.lor (Z.shiftl j1 (leaf_bits c + mid_bits c)) (Z.shiftl j2 (leaf_bits c))) j3)) s3
        end) s2
    end) a.
