(** Model of internal/system_allocator.h: where the address space comes from.

    Addresses are numbers.  Without sanitizers, on x86-64: kAddressBits is 48, the tag of an address is its bits 42 to
    44 (FrontApi.get_memory_tag), a hugepage has 2^21 bytes.  [ps]: the page size of the system.  [mm]: min_mmap_size_.

    The factory of address regions is the default one, MmapRegionFactory.  SetAnonVmaName, BindMemory, munlock,
    MADV_NOHUGEPAGE and logging are not modelled. *)
From Verif Require Import Base FrontApi.

Definition kAddressBits : Z := 48.
(** internal/memory_tag.h:44-46. *)
Definition kTagMask : Z := Z.shiftl 7 tag_shift.
(** internal/config.h, with hugepages of 2 MiB. *)
Definition kHuge : Z := 2 ^ 21.
(** The tags, internal/memory_tag.h:28-42. *)
Definition is_tag (t : Z) : Prop := In t [tag_sampled; tag_sampled_p1; tag_cold; tag_metadata; tag_normal_p0; tag_normal_p1].

(** internal/memory_tag.h:53-66 *)
Definition is_normal_memory (ptr : Z) : bool := negb (Z.land (get_memory_tag ptr) tag_normal_p0 =? 0).

(** What the environment answers: the values of rnd_ with which RandomMmapHint returns, by number of the attempt, size and alignment; the
    replies to mmap, by number of the attempt, hint and size (None is MAP_FAILED); whether the region object could be
    allocated; the replies to mprotect, first and second call. *)
Record senv := SEnv { e_rnd : nat -> Z -> Z -> Z; e_map : nat -> Z -> Z -> option Z; e_create : bool; e_prot : bool -> bool }.

(** The members.  Each of the arrays next_*_addr_ and *_region_ has one entry per tag.
    A region is its start and the size of its free part. *)
Record sysalloc := SysAlloc { sa_next : Z -> Z; sa_region : Z -> option (Z * Z) }.
Definition sa_init : sysalloc := SysAlloc (fun _ => 0) (fun _ => None).

(** internal/system_allocator.h:302-306 *)
Definition round_down (n a : Z) : Z := Z.ldiff n (a - 1).
(** internal/system_allocator.h:309-311 *)
Definition round_up (n a : Z) : Z := round_down (wrap64 (n + a - 1)) a.

(** absl::bit_ceil. *)
Definition sa_bit_ceil (x : Z) : Z := 2 ^ Z.log2_up x.

(** internal/system_allocator.h:782-872
    The loop runs until the result is not 0: [r] is the value of rnd_ after it. *)
Definition random_hint (size alignment tag r : Z) : Z :=
  let mask := 2 ^ (kAddressBits - 1) - 1 in
  let alignment := sa_bit_ceil (Z.max alignment size) in
  let addr := Z.ldiff (Z.ldiff (Z.land r mask) (alignment - 1)) kTagMask in
  Z.lor addr (Z.shiftl tag tag_shift).

(** internal/system_allocator.h:572-613: the loop of MmapAlignedLocked.  [fixed]: the kernel
    knows MAP_FIXED_NOREPLACE.  Result: the mapping or nullptr, and next_addr. *)
Fixpoint map_loop (fuel i : nat) (fixed : bool) (next size alignment tag : Z) (e : senv) : option (option Z * Z) :=
  match fuel with
  | O => Some (None, next)
  | S fuel =>
    if negb (get_memory_tag next =? tag) then None
    else
      let again := map_loop fuel (S i) fixed (random_hint size alignment tag (e_rnd e (S i) size alignment)) size alignment tag e in
      match e_map e i next size with
      | Some r =>
        if r =? next then
          if (next + size <=? 2 ^ kAddressBits) && (Z.land r (alignment - 1) =? 0) then Some (Some r, next + size) else None
        else if fixed then None else again
      | None => if fixed then again else Some (None, next)
      end
  end.

(** internal/system_allocator.h:529-630 *)
Definition mmap_aligned (fixed : bool) (s : sysalloc) (size alignment tag : Z) (e : senv) : option (option Z * sysalloc) :=
  if negb ((size <=? kTagMask) && (alignment <=? kTagMask)) then None
  else
    let next := sa_next s tag in
    let next :=
      if (next =? 0) || negb (Z.land next (alignment - 1) =? 0) || negb (get_memory_tag next =? tag)
         || negb (get_memory_tag (next + size - 1) =? tag)
      then random_hint size alignment tag (e_rnd e 0%nat size alignment) else next in
    let? (res, next) := map_loop 1000 0 fixed next size alignment tag e in
    Some (res, SysAlloc (upd (sa_next s) tag next) (sa_region s)).

(** internal/system_allocator.h:367-404
    [ok]: the reply to mprotect.  Result: the address and size, if any, and the region. *)
Definition region_alloc (r : Z * Z) (request alignment : Z) (ok : bool) : option (Z * Z) * (Z * Z) :=
  let size := round_up request kHuge in
  if size <? request then (None, r)
  else
    let alignment := Z.max alignment kHuge in
    let fin := fst r + snd r in
    let result := wrap64 (fin - size) in
    if fin <? result then (None, r)
    else
      let result := Z.ldiff result (alignment - 1) in
      if result <? fst r then (None, r)
      else
        let actual := fin - result in
        if ok then (Some (result, actual), (fst r, snd r - actual)) else (None, r).

Definition set_region (s : sysalloc) (tag : Z) (r : option (Z * Z)) : sysalloc := SysAlloc (sa_next s) (upd (sa_region s) tag r).

(** internal/system_allocator.h:442-519
    The third result is what has been mapped and was not unmapped again (ghost). *)
Definition allocate_from_region (fixed : bool) (mm : Z) (s : sysalloc) (request alignment tag : Z) (e : senv)
  : option (option (Z * Z) * sysalloc * list (Z * Z)) :=
  let tag_free := Z.shiftl 1 tag_shift in
  if (tag_free <? request) || (tag_free <? alignment) then Some (None, s, [])
  else if (mm <? request) || (mm <? alignment) then
    let size := round_up request kHuge in
    if size <? request then Some (None, s, [])
    else
      let alignment := Z.max alignment kHuge in
      let? (m, s) := mmap_aligned fixed s size alignment tag e in
      match m with
      | None => Some (None, s, [])
      | Some ptr =>
        if e_create e then
          match region_alloc (ptr, size) size alignment (e_prot e true) with
          | (Some (p, n), _) => if (p =? ptr) && (n =? size) then Some (Some (p, n), s, [(ptr, size)]) else None
          | (None, _) => Some (None, s, [(ptr, size)])
          end
        else Some (None, s, [])
      end
  else
    let '(res, s) :=
      match sa_region s tag with
      | Some r => let '(res, r) := region_alloc r request alignment (e_prot e true) in (res, set_region s tag (Some r))
      | None => (None, s)
      end in
    match res with
    | Some x => Some (Some x, s, [])
    | None =>
      let? (m, s) := mmap_aligned fixed s mm mm tag e in
      match m with
      | None => Some (None, s, [])
      | Some ptr =>
        if e_create e then
          let '(res, r) := region_alloc (ptr, mm) request alignment (e_prot e false) in
          Some (res, set_region s tag (Some r), [(ptr, mm)])
        else Some (None, set_region s tag None, [])
      end
    end.

(** internal/system_allocator.h:321-340
    With the assertions of debug builds. *)
Definition sys_allocate (fixed : bool) (ps mm : Z) (s : sysalloc) (bytes alignment tag : Z) (e : senv)
  : option (option (Z * Z) * sysalloc * list (Z * Z)) :=
  let alignment := Z.max alignment ps in
  if wrap64 (bytes + alignment) <? bytes then Some (None, s, [])
  else
    let? (res, s, m) := allocate_from_region fixed mm s bytes alignment tag e in
    match res with
    | None => Some (None, s, m)
    | Some (p, n) => if (Z.shiftr (p + n - 1) kAddressBits =? 0) && (get_memory_tag p =? tag) then Some (Some (p, n), s, m) else None
    end.

(** internal/system_allocator.h:350-355, to a factory of
    the same kind. *)
Definition discard_regions (s : sysalloc) : sysalloc := SysAlloc (sa_next s) (fun _ => None).

(** ** Giving memory back *)

(** What madvise does with a range: MADV_REMOVE, MADV_FREE, MADV_DONTNEED or MADV_DONTNEED_LOCKED. *)
Inductive advice := ARemove | AFree | ADontNeed | ADontNeedLocked.
Inductive mpref := PrefNever | PrefDontNeed | PrefFreeAndDontNeed | PrefFreeOnly.
Inductive rstatus := RSuccess | RFailure | RRetry.
(** The last reply of each of the loops that repeat a call while it answers EAGAIN: did it succeed?  By round. *)
Record menv := MEnv { m_adv : bool -> advice -> bool; m_unlock : bool; m_locked : bool }.

(** internal/system_allocator.h:876-958 Result: the
    status and the calls of madvise. *)
Definition release_pages_sys (ps : Z) (pref : mpref) (start len : Z) (round : bool) (e : menv) : rstatus * list (advice * Z * Z) :=
  let s := start in
  let fin := wrap64 (s + len) in
  if negb (Z.land s (ps - 1) =? 0) || negb (Z.land fin (ps - 1) =? 0) then (RFailure, [])
  else if m_adv e round ARemove then (RSuccess, [(ARemove, start, len)])
  else
    let do_free := match pref with PrefFreeAndDontNeed | PrefFreeOnly => true | _ => false end in
    let ret := if do_free then m_adv e round AFree else false in
    let do_dontneed := match pref with PrefFreeAndDontNeed | PrefDontNeed => true | _ => false end in
    let advice := if m_locked e then ADontNeedLocked else ADontNeed in
    let ret := if do_dontneed then m_adv e round advice else ret in
    let status := if do_dontneed && negb (m_locked e) then RRetry else RFailure in
    (if ret then RSuccess else status,
     [(ARemove, start, len)] ++ (if do_free then [(AFree, start, len)] else []) ++ (if do_dontneed then [(advice, start, len)] else [])).

(** internal/system_allocator.h:633-680 Result: the
    success, the calls of madvise, what was unlocked, and by how much release_errors_ grows. *)
Definition sys_release (ps : Z) (pref : mpref) (start len : Z) (e : menv) : bool * list (advice * Z * Z) * list (Z * Z) * Z :=
  let fin := wrap64 (start + len) in
  let new_start := Z.ldiff (wrap64 (start + ps - 1)) (ps - 1) in
  let new_end := Z.ldiff fin (ps - 1) in
  if new_end <=? new_start then (false, [], [], 0)
  else
    let n := new_end - new_start in
    match release_pages_sys ps pref new_start n false e with
    | (RSuccess, calls) => (true, calls, [], 0)
    | (RFailure, calls) => (false, calls, [], 1)
    | (RRetry, calls) =>
      if m_unlock e then
        match release_pages_sys ps pref new_start n true e with
        | (RSuccess, calls2) => (true, calls ++ calls2, [(new_start, n)], 0)
        | (_, calls2) => (false, calls ++ calls2, [(new_start, n)], 1)
        end
      else (false, calls, [(new_start, n)], 1)
    end.
