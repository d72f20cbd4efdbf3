(** The whole allocator as one state machine: the per-CPU caches, the transfer caches, the central free lists with their spans,
    the page heaps and the system allocator, with the page map, the memory and the span descriptors they share, and the
    program's live objects.  Every step is a step of one of the verified components or the program's own. *)
From Coq Require Import Permutation.
From Verif Require HeapCaches Hpaa HpaaProofs HpaaProps SysAlloc SysAllocProps HeapPages.
From Verif Require Import Base SizeMap SizeMapProofs SizeMapProofs2 FrontApi Bitmap Span SpanProofs CentralFreeList CFLProps HeapClass.

Notation hspan := HpaaProofs.span.
Notation sp_page := HpaaProofs.sp_page.
Notation sp_len := HpaaProofs.sp_len.

(** The configuration: the build's constants, the table of size classes and the map made of it (sizemap.cc), the number of
    partitions in use (static_vars.h), the constants of the page heaps, the numbers of CPUs and threads. *)
Record hpar := HPar {
  p_c : cfg; p_t : list sci; p_active : bool; p_full : bool; p_parts : Z; p_m : sizemap;
  p_q : HeapPages.bpar; p_ncpu : Z; p_nthr : Z }.
Definition hpar_ok (p : hpar) : Prop :=
  cfg_ok (p_c p) /\ fits (p_c p) (p_t p) /\ valid_size_classes (p_c p) (p_t p) = true /\
  init (p_c p) (p_active p) (p_full p) (p_t p) = Some (p_m p) /\
  HeapPages.bpar_ok (p_q p) /\ HeapPages.q_pg (p_q p) = page_size (p_c p).

Definition pg (p : hpar) : Z := page_size (p_c p).
Definition csize (p : hpar) (k : Z) : Z := class_to_size (p_m p) k.
Definition cpages (p : hpar) (k : Z) : Z := class_to_pages (p_m p) k.
(** The classes in use: those with a valid size (the map fills the others with 0, sizemap.cc:153-189). *)
Definition class_used (p : hpar) (k : Z) : bool :=
  (0 <? csize p k) && (0 <? cpages p k) && is_valid_class (p_c p) (csize p k) (cpages p k) (objects_to_move (p_m p) k).
Definition classes (p : hpar) : list Z := filter (class_used p) (zseq 1 (Z.to_nat (num_classes (p_c p) - 1))).

(** A live object of the program: its address, what was asked for, and (not known to the code) the class it is from or, if it
    is an allocation of whole pages (class 0), its span and the memory tag asked for. *)
Record alloc := Alloc { a_ptr : Z; a_req : Z; a_align : Z; a_class : Z; a_id : Z; a_tag : Z }.

(** [g_mem], [g_span], [g_nidx]: memory and span descriptors; [g_pm], [g_sc]: the page map's two entries for a page, the span
    and the size class (pagemap.h); [h_cl]: the central free lists (the shared parts inside are not used, see [view]);
    [h_tc]: the transfer caches; [h_slab], [h_tr]: the per-CPU caches and what happened to them; [h_hands]: the objects of a
    class that threads have between two operations; [h_live]: the live objects; [h_fresh]: the ranges of pages that the page
    heaps have returned to threads, with the length and the alignment asked for, before their use; [h_ret]: those on their
    way back to the page heap; [h_desc]: the tag and the pages of a span; [h_back]: the page heaps and the system allocator. *)
Record heap := Heap {
  g_mem : memory; g_span : Z -> span; g_nidx : Z -> Z; g_pm : Z -> option Z; g_sc : Z -> Z;
  h_cl : Z -> sys; h_tc : Z -> HeapCaches.tcs; h_slab : SlabRseq.rst; h_tr : list SlabRseq.label;
  h_hands : Z -> list Z; h_live : list alloc;
  h_fresh : list (Z * Z * Z); h_ret : list Z; h_desc : Z -> Z * hspan; h_back : HeapPages.back }.

(** A central free list with the shared state. *)
Definition view (h : heap) (k : Z) : sys := with_shared (h_cl h k) (g_mem h) (g_span h) (g_nidx h) (g_pm h).

(** The spans of live allocations of whole pages. *)
Definition large_ids (l : list alloc) : list Z := map a_id (filter (fun a => a_class a =? 0) l).
Definition live_of (k : Z) (l : list alloc) : list Z := map a_ptr (filter (fun a => a_class a =? k) l).
Definition fresh_ids (l : list (Z * Z * Z)) : list Z := map (fun x => fst (fst x)) l.
Definition class_ids (p : hpar) (cl : Z -> sys) : list Z := flat_map (fun k => y_ph (cl k)) (classes p).
(** All spans. *)
Definition all_ids (p : hpar) (h : heap) : list Z :=
  fresh_ids (h_fresh h) ++ h_ret h ++ large_ids (h_live h) ++ class_ids p (h_cl h).

(** The number of bytes the program may use. *)
Definition usable (p : hpar) (h : heap) (a : alloc) : Z :=
  if a_class a =? 0 then sp_len (snd (h_desc h (a_id a))) * pg p else csize p (a_class a).

(** pagemap.cc:35-51 RegisterSizeClass, UnregisterSizeClass: the size class of the pages of a span. *)
Definition mark (fp pages v : Z) (sc : Z -> Z) : Z -> Z := fun x => if (fp <=? x) && (x <? fp + pages) then v else sc x.
Definition marks (h : heap) (pages v : Z) (ids : list Z) (sc : Z -> Z) : Z -> Z :=
  fold_right (fun x => mark (first_page (g_span h x)) pages v) sc ids.

(** The state after a step of a central free list. *)
Definition set_class (h : heap) (k : Z) (y : sys) (sc : Z -> Z) (hands : list Z) (fresh : list (Z * Z * Z)) (ret : list Z) : heap :=
  Heap (f_mem (y_f y)) (f_span (y_f y)) (f_nidx (y_f y)) (f_pagemap (y_f y)) sc (upd (h_cl h) k y) (h_tc h) (h_slab h) (h_tr h)
    (upd (h_hands h) k hands) (h_live h) fresh ret (h_desc h) (h_back h).
Definition set_tcs (h : heap) (k : Z) (l : HeapCaches.tcs) (hands : list Z) : heap :=
  Heap (g_mem h) (g_span h) (g_nidx h) (g_pm h) (g_sc h) (h_cl h) (upd (h_tc h) k l) (h_slab h) (h_tr h)
    (upd (h_hands h) k hands) (h_live h) (h_fresh h) (h_ret h) (h_desc h) (h_back h).
Definition set_slab (h : heap) (s : SlabRseq.rst) (tr : list SlabRseq.label) (hands : Z -> list Z) : heap :=
  Heap (g_mem h) (g_span h) (g_nidx h) (g_pm h) (g_sc h) (h_cl h) (h_tc h) s tr
    hands (h_live h) (h_fresh h) (h_ret h) (h_desc h) (h_back h).
Definition set_objs (h : heap) (hands : Z -> list Z) (live : list alloc) (fresh : list (Z * Z * Z)) (ret : list Z) : heap :=
  Heap (g_mem h) (g_span h) (g_nidx h) (g_pm h) (g_sc h) (h_cl h) (h_tc h) (h_slab h) (h_tr h)
    hands live fresh ret (h_desc h) (h_back h).
Definition set_pages (h : heap) (sp : Z -> span) (pm : Z -> option Z) (fresh : list (Z * Z * Z)) (ret : list Z) (desc : Z -> Z * hspan)
  (b : HeapPages.back) : heap :=
  Heap (g_mem h) sp (g_nidx h) pm (g_sc h) (h_cl h) (h_tc h) (h_slab h) (h_tr h)
    (h_hands h) (h_live h) fresh ret desc b.
Definition set_env (h : heap) (m : memory) (sp : Z -> span) (ni : Z -> Z) : heap :=
  Heap m sp ni (g_pm h) (g_sc h) (h_cl h) (h_tc h) (h_slab h) (h_tr h)
    (h_hands h) (h_live h) (h_fresh h) (h_ret h) (h_desc h) (h_back h).

Definition in_span_bytes (p : hpar) (h : heap) (x a : Z) : Prop :=
  sp_page (snd (h_desc h x)) * pg p <= a < (sp_page (snd (h_desc h x)) + sp_len (snd (h_desc h x))) * pg p.

Inductive hstep (p : hpar) : heap -> heap -> Prop :=
(* a step of the central free list of a class (HeapClass.v); central_freelist.cc:114-136 AllocateSpan: it uses a span just
   obtained from the page heap of the class's tag; central_freelist.cc:159-201 DeallocateSpans *)
| S_class h k e y' hands' got rest tag : In k (classes p) ->
    cstep (p_c p) (csize p k) (cpages p k) (view h k) e y' ->
    Permutation (h_hands h k ++ e_out e) (e_in e ++ hands') ->
    memory_tag_from_size_class (p_c p) (p_parts p) k = Some tag ->
    Permutation (h_fresh h) (got ++ rest) -> fresh_ids got = map fst (e_got e) ->
    Forall (fun x => snd (fst x) = cpages p k /\ fst (h_desc h (fst (fst x))) = tag) got ->
    Forall (fun x => snd x = g_span h (fst x)) (e_got e) ->
    hstep p h (set_class h k y' (marks h (cpages p k) k (map fst (e_got e)) (marks h (cpages p k) 0 (e_gave e) (g_sc h)))
                 hands' rest (e_gave e ++ h_ret h))
(* a step of a transfer cache (transfer_cache_internals.h) *)
| S_tcs h k given back L' hands' : In k (classes p) ->
    HeapCaches.tcs_step (objects_to_move (p_m p) k) (h_tc h k) given back L' ->
    Permutation (h_hands h k ++ back) (given ++ hands') ->
    hstep p h (set_tcs h k L' hands')
(* a step of the per-CPU caches (internal/percpu_tcmalloc.h, cpu_cache.h) *)
| S_slab h ls s' hands' : SlabRseq.rstep (p_ncpu p) (num_classes (p_c p)) (h_slab h) ls s' ->
    (forall t, t < 0 \/ p_nthr p <= t -> SlabRseq.pcs s' t = SlabRseq.Idle) ->
    (forall k, 1 <= k < num_classes (p_c p) ->
       Permutation (h_hands h k ++ HeapCaches.slab_hands (p_nthr p) k (h_slab h) ++ HeapCaches.takens k ls)
                   (hands' k ++ HeapCaches.slab_hands (p_nthr p) k s' ++ HeapCaches.puts k ls)) ->
    hstep p h (set_slab h s' (h_tr h ++ ls) hands')
(* malloc, operator new and the others for a small size: an object of the size's class (sizemap.h:210-274), which a thread has
   got from a cache, is returned to the program *)
| S_malloc h pol size k l1 x l2 : policy_ok (p_c p) pol -> 0 <= size -> get_size_class (p_c p) (p_m p) pol size = Small k ->
    h_hands h k = l1 ++ x :: l2 ->
    hstep p h (set_objs h (upd (h_hands h) k (l1 ++ l2)) (Alloc x size (align pol) k 0 0 :: h_live h) (h_fresh h) (h_ret h))
(* tcmalloc.cc:632-669 do_malloc_pages, or a small allocation that is sampled and gets its own pages (allocation_sampling.h):
   at least the pages for the size, at least one, with the tag of the kind of memory *)
| S_malloc_pages h pol size L1 id n L2 tag : policy_ok (p_c p) pol -> 0 <= size ->
    bytes_to_length_ceil (p_c p) size <= n ->
    malloc_pages_tag (p_c p) (p_full p) (p_parts p) pol = Some tag \/ tag = tag_sampled -> fst (h_desc h id) = tag ->
    h_fresh h = L1 ++ (id, n, Z.max 1 (bytes_to_length_ceil (p_c p) (align pol))) :: L2 ->
    hstep p h (set_objs h (h_hands h) (Alloc (first_page (g_span h id) * pg p) size (align pol) 0 id tag :: h_live h) (L1 ++ L2) (h_ret h))
(* free, operator delete: the page map has the class of the object's page, tcmalloc.cc:806-840 do_free *)
| S_free h L1 a L2 k : h_live h = L1 ++ a :: L2 -> g_sc h (a_ptr a / pg p) = k -> k <> 0 ->
    hstep p h (set_objs h (upd (h_hands h) k (a_ptr a :: h_hands h k)) (L1 ++ L2) (h_fresh h) (h_ret h))
(* no class: the page map has the span, tcmalloc.cc:665-760 InvokeHooksAndFreePages *)
| S_free_pages h L1 a L2 id : h_live h = L1 ++ a :: L2 -> g_sc h (a_ptr a / pg p) = 0 -> g_pm h (a_ptr a / pg p) = Some id ->
    hstep p h (set_objs h (h_hands h) (L1 ++ L2) (h_fresh h) (id :: h_ret h))
(* the page heaps at work, HeapPages.v *)
| S_page_quiet h b' : HeapPages.bstep (p_q p) (h_back h) HeapPages.BNone b' ->
    hstep p h (set_pages h (g_span h) (g_pm h) (h_fresh h) (h_ret h) (h_desc h) b')
(* a page heap returns a range: it gets a descriptor that is not in use, and the page map has it for the first page
   (huge_page_aware_allocator.h:578-593 Finalize, huge_page_aware_allocator.h:801-815 Spanify) *)
| S_page_got h t s n al b' id s0 : HeapPages.bstep (p_q p) (h_back h) (HeapPages.BGot t s n al) b' ->
    ~ In id (all_ids p h) -> first_page s0 = sp_page s ->
    hstep p h (set_pages h (upd (g_span h) id s0)
      (upd (g_pm h) (sp_page s) (Some id)) ((id, n, al) :: h_fresh h) (h_ret h) (upd (h_desc h) id (t, s)) b')
(* a range goes back to the page heap of its address's tag (tcmalloc.cc:735-765, central_freelist.cc:159-196); the page map
   then has no span for its first page (huge_page_aware_allocator.h:897, the sentinel kInvalidSpan is None here) *)
| S_page_back h t s b' R1 id R2 : HeapPages.bstep (p_q p) (h_back h) (HeapPages.BBack t s) b' ->
    h_ret h = R1 ++ id :: R2 -> t = get_memory_tag (first_page (g_span h id) * pg p) -> s = snd (h_desc h id) ->
    hstep p h (set_pages h (g_span h) (upd (g_pm h) (sp_page s) None) (h_fresh h) (R1 ++ R2) (h_desc h) b')
(* the program writes into a live object *)
| S_write h a x v : In a (h_live h) -> a_ptr a <= x < a_ptr a + usable p h a ->
    hstep p h (set_env h (upd (g_mem h) x v) (g_span h) (g_nidx h))
(* memory that is neither in a span of a class nor in a live object, and descriptors not in use, change in any way *)
| S_env h m sp ni :
    (forall x, In x (all_ids p h) -> sp x = g_span h x /\ ni x = g_nidx h x) ->
    (forall x a, In x (large_ids (h_live h) ++ class_ids p (h_cl h)) -> in_span_bytes p h x a -> m a = g_mem h a) ->
    hstep p h (set_env h m sp ni).

(** At the start nothing is allocated and all caches are empty; the memory and the page map's spans are arbitrary. *)
Definition heap_init (p : hpar) (m : memory) (sp : Z -> span) (ni : Z -> Z) (pm : Z -> option Z) (tc : Z -> HeapCaches.tcs)
  (s : SlabRseq.rst) (desc : Z -> Z * hspan) (t0 : Z -> PageTracker.ptracker) (more_often : bool) : heap :=
  Heap m sp ni pm (fun _ => 0) (fun _ => cinit m sp ni pm) tc s [] (fun _ => []) [] [] [] desc (HeapPages.back_init t0 more_often).

Definition tcs_start (l : HeapCaches.tcs) : Prop :=
  Forall (fun x => snd x = [] /\ exists cap mx, 0 <= cap <= mx /\ fst x = TransferCache.tc_new cap mx) l.

Inductive hreach (p : hpar) : heap -> Prop :=
| hr_init m sp ni pm tc s desc t0 mo : (forall k, tcs_start (tc k)) -> SlabRseq.reach (p_ncpu p) (num_classes (p_c p)) s [] ->
    (forall t, SlabRseq.pcs s t = SlabRseq.Idle) ->
    hreach p (heap_init p m sp ni pm tc s desc t0 mo)
| hr_step h h' : hreach p h -> hstep p h h' -> hreach p h'.
