(** Properties of guarded sampling (C29), over the model in Guarded.v.

    The specification: a pool of [gc_total] pages for objects, numbered from 0, with a
    page in front of each of them and one at the very end.  [page cf s] is where object
    page [s] starts.  The history [hist] records what the program has seen: the objects
    it holds, the objects being freed, every pointer it ever got, every address it
    wrote. *)
From Verif Require Import Base Bitmap BitmapProofs Guarded.
From Coq Require Import Permutation.

(** What Init demands and the system mapping provides. *)
Definition gcfg_ok (cf : gcfg) : Prop :=
  (exists k, 4 <= k /\ gc_page cf = 2 ^ k) /\
  0 < gc_max cf <= gc_total cf /\ gc_total cf <= gpa_max_pages /\
  (gc_page cf | gc_base cf) /\ 0 < gc_base cf.

(** Where object page [s] starts, and which addresses are on it. *)
Definition page (cf : gcfg) (s : Z) : Z := gc_base cf + (2 * s + 1) * gc_page cf.
Definition in_page (cf : gcfg) (s a : Z) : Prop := page cf s <= a < page cf s + gc_page cf.
Definition same_page (cf : gcfg) (a b : Z) : bool := a / gc_page cf =? b / gc_page cf.

(** An object handed to the program; [o_image] is the memory at that moment. *)
Record obj := mkObj { o_slot : Z; o_ptr : Z; o_size : Z; o_align : Z; o_image : Z -> Z }.

Record hist := mkHist {
  h_live : list obj;           (* handed out, not freed *)
  h_dying : list (obj * Z);    (* being freed, with the pointer passed to the free *)
  h_returned : list Z;         (* all pointers ever returned *)
  h_dirty : list Z;            (* addresses written since their page was handed out *)
  h_bad : list Z;              (* slots with a changed byte when the free looked *)
}.
Definition hist0 : hist := mkHist [] [] [] [] [].

(** One of the 32 bytes behind the object, still on its page, is not what it was when
    the object was handed out.  (Even slots only: in odd ones the object is at the start
    of the page and nothing is checked.) *)
Definition changed (st : gst) (cf : gcfg) (o : obj) : Prop :=
  o_slot o mod 2 = 0 /\ 0 < o_size o /\
  exists i, 0 <= i < 32 /\ in_page cf (o_slot o) (o_ptr o + o_size o + i) /\
    ga_mem (gs_ga st) (o_ptr o + o_size o + i) <> o_image o (o_ptr o + o_size o + i).

(** How the history continues.  The only rule for the program: it frees nothing but
    pointers it got from the allocator (possibly too often, or too late). *)
Inductive follows (cf : gcfg) (st : gst) (h : hist) : gev -> hist -> Prop :=
| fo_internal : follows cf st h EvInternal h
| fo_start : follows cf st h EvStart h
| fo_noslots : follows cf st h EvNoSlots h
| fo_mfailed : follows cf st h EvMprotectFailed h
| fo_freeing : forall ptr, In ptr (h_returned h) ->
    follows cf st h (EvFreeing ptr)
      (mkHist (filter (fun o => negb (same_page cf (o_ptr o) ptr)) (h_live h))
              (map (fun o => (o, ptr)) (filter (fun o => same_page cf (o_ptr o) ptr) (h_live h))
               ++ h_dying h)
              (h_returned h) (h_dirty h) (h_bad h))
| fo_check_good : forall s,
    (forall o ptr, In (o, ptr) (h_dying h) -> o_slot o = s -> ~ changed st cf o) ->
    follows cf st h (EvCheck s) h
| fo_check_bad : forall s o ptr, In (o, ptr) (h_dying h) -> o_slot o = s -> changed st cf o ->
    follows cf st h (EvCheck s)
      (mkHist (h_live h) (h_dying h) (h_returned h) (h_dirty h) (s :: h_bad h))
| fo_freed : forall s,
    follows cf st h (EvFreed s)
      (mkHist (h_live h) (filter (fun d => negb (o_slot (fst d) =? s)) (h_dying h))
              (h_returned h) (h_dirty h) (h_bad h))
| fo_write : forall a,
    follows cf st h (EvWrite a)
      (mkHist (h_live h) (h_dying h) (h_returned h) (a :: h_dirty h) (h_bad h)).
(** Returning an object: its image is the memory of the state after the step. *)
Definition returns (cf : gcfg) (st' : gst) (h : hist) (s p n al : Z) : hist :=
  mkHist (mkObj s p n al (ga_mem (gs_ga st')) :: h_live h) (h_dying h) (p :: h_returned h)
         (filter (fun a => negb (same_page cf p a)) (h_dirty h)) (h_bad h).

(** All histories of all schedules. *)
Inductive greach (cf : gcfg) : gst -> hist -> Prop :=
| gr_init : greach cf (mkGst ga_init []) hist0
| gr_step : forall st h ev st' h', greach cf st h -> gstep cf st ev (Some st') ->
    follows cf st h ev h' -> greach cf st' h'
| gr_return : forall st h s p n al st', greach cf st h ->
    gstep cf st (EvReturn s p n al) (Some st') -> greach cf st' (returns cf st' h s p n al).

(** ** Arithmetic of pages *)

Definition is_pow2 (x : Z) : Prop := exists k, 0 <= k /\ x = 2 ^ k.

Lemma pow2_div x y : is_pow2 x -> is_pow2 y -> x <= y -> (x | y).
Proof.
  intros (i & Hi & ->) (j & Hj & ->) L. exists (2 ^ (j - i)). rewrite <- Z.pow_add_r; [f_equal; lia| |lia].
  apply Z.pow_le_mono_r_iff in L; lia.
Qed.

Lemma pow2_max x y : is_pow2 x -> is_pow2 y -> is_pow2 (Z.max x y).
Proof. intros; destruct (Z.max_spec x y) as [(_ & ->)|(_ & ->)]; assumption. Qed.
Lemma pow2_min x y : is_pow2 x -> is_pow2 y -> is_pow2 (Z.min x y).
Proof. intros; destruct (Z.min_spec x y) as [(_ & ->)|(_ & ->)]; assumption. Qed.

Lemma pow2_pos x : is_pow2 x -> 1 <= x.
Proof. intros (k & Hk & ->). pose proof (Z.pow_pos_nonneg 2 k). lia. Qed.

Lemma bit_ceil_pow2 n : is_pow2 (bit_ceil n).
Proof.
  unfold bit_ceil. destruct (n <=? 1); [exists 0; split; [lia|reflexivity]|].
  exists (Z.log2_up n). split; [apply Z.log2_up_nonneg|reflexivity].
Qed.

Lemma bit_ceil_bounds n : 0 < n -> n <= bit_ceil n < 2 * n.
Proof.
  intros Hn. unfold bit_ceil. destruct (Z.leb_spec n 1); [lia|].
  pose proof (Z.log2_up_spec n ltac:(lia)) as (A & B).
  pose proof (Z.log2_up_pos n ltac:(lia)).
  replace (Z.log2_up n) with (Z.succ (Z.pred (Z.log2_up n))) at 2 by lia.
  rewrite Z.pow_succ_r by lia. lia.
Qed.

Lemma pow2_ceil_le d n : is_pow2 d -> 0 < n -> d < 2 * n -> d <= bit_ceil n.
Proof.
  intros (i & Hi & ->) Hn L. destruct (bit_ceil_pow2 n) as (j & Hj & E). rewrite E.
  pose proof (bit_ceil_bounds n Hn) as (B & _). rewrite E in B.
  apply Z.pow_le_mono_r; [lia|]. destruct (Z.le_gt_cases i j) as [|G]; [assumption|].
  assert (2 ^ (j + 1) <= 2 ^ i) by (apply Z.pow_le_mono_r; lia).
  rewrite Z.pow_add_r in H by lia. lia.
Qed.

Lemma page_pow2 cf (OK : gcfg_ok cf) : is_pow2 (gc_page cf).
Proof. destruct OK as ((k & Hk & E) & _). exists k. split; [lia|exact E]. Qed.
Lemma page_ge cf (OK : gcfg_ok cf) : 16 <= gc_page cf.
Proof.
  destruct OK as ((k & Hk & E) & _). rewrite E. change 16 with (2 ^ 4).
  apply Z.pow_le_mono_r; lia.
Qed.

Lemma page_addr_spec cf (OK : gcfg_ok cf) a : page_addr cf a = gc_page cf * (a / gc_page cf).
Proof.
  destruct OK as ((k & Hk & E) & _). unfold page_addr. rewrite E.
  replace (2 ^ k - 1) with (Z.ones k) by (rewrite Z.ones_equiv; lia).
  rewrite Z.ldiff_ones_r by lia. rewrite Z.shiftl_mul_pow2, Z.shiftr_div_pow2 by lia. lia.
Qed.

Lemma page_mult cf (OK : gcfg_ok cf) s : (gc_page cf | page cf s).
Proof.
  unfold page. destruct OK as (_ & _ & _ & D & _). apply Z.divide_add_r; [exact D|].
  apply Z.divide_factor_r.
Qed.

Lemma first_page_spec cf (OK : gcfg_ok cf) : first_page cf = gc_base cf + gc_page cf.
Proof.
  unfold first_page. rewrite (page_addr_spec cf OK). pose proof (page_ge cf OK).
  destruct OK as (_ & _ & _ & (q & E) & _). rewrite E.
  replace (q * gc_page cf + gc_page cf) with ((q + 1) * gc_page cf) by lia.
  rewrite Z.div_mul by lia. lia.
Qed.

Lemma slot_to_addr_spec cf (OK : gcfg_ok cf) s : slot_to_addr cf s = page cf s.
Proof. unfold slot_to_addr, page. rewrite (first_page_spec cf OK). lia. Qed.

Lemma in_page_div cf (OK : gcfg_ok cf) s a : in_page cf s a <-> a / gc_page cf = page cf s / gc_page cf.
Proof.
  unfold in_page. pose proof (page_ge cf OK). destruct (page_mult cf OK s) as (q & E). rewrite E.
  rewrite Z.div_mul by lia. split.
  - intros B. symmetry. apply Z.div_unique with (a - q * gc_page cf); lia.
  - intros <-. pose proof (Z.div_mod a (gc_page cf) ltac:(lia)).
    pose proof (Z.mod_pos_bound a (gc_page cf) ltac:(lia)). lia.
Qed.

Lemma page_addr_in cf (OK : gcfg_ok cf) s a : in_page cf s a -> page_addr cf a = page cf s.
Proof.
  intros B. apply (in_page_div cf OK) in B. rewrite (page_addr_spec cf OK), B.
  destruct (page_mult cf OK s) as (q & E). pose proof (page_ge cf OK). rewrite E, Z.div_mul by lia. lia.
Qed.

Lemma page_addr_inv cf (OK : gcfg_ok cf) s a : page_addr cf a = page cf s -> in_page cf s a.
Proof.
  intros E. apply (in_page_div cf OK). rewrite (page_addr_spec cf OK) in E. rewrite <- E. pose proof (page_ge cf OK).
  rewrite Z.mul_comm, Z.div_mul by lia. reflexivity.
Qed.

Lemma addr_to_slot_page cf (OK : gcfg_ok cf) s : addr_to_slot cf (page cf s) = s.
Proof.
  unfold addr_to_slot. rewrite (first_page_spec cf OK). unfold page. pose proof (page_ge cf OK).
  replace (gc_base cf + (2 * s + 1) * gc_page cf - (gc_base cf + gc_page cf))
    with (2 * s * gc_page cf) by lia.
  rewrite Z.div_mul by lia. rewrite Z.mul_comm, Z.div_mul by lia. reflexivity.
Qed.

Lemma slot_of_in cf (OK : gcfg_ok cf) s a : in_page cf s a -> addr_to_slot cf (page_addr cf a) = s.
Proof. intros B. rewrite (page_addr_in cf OK s a B). apply (addr_to_slot_page cf OK). Qed.

Lemma page_inj cf (OK : gcfg_ok cf) s t : page cf s = page cf t -> s = t.
Proof. unfold page. pose proof (page_ge cf OK). nia. Qed.

Lemma in_page_unique cf (OK : gcfg_ok cf) s t a : in_page cf s a -> in_page cf t a -> s = t.
Proof. intros A B. rewrite <- (slot_of_in cf OK s a A). apply (slot_of_in cf OK). exact B. Qed.

Lemma same_page_spec cf (OK : gcfg_ok cf) s a b : in_page cf s a -> same_page cf a b = true <-> in_page cf s b.
Proof.
  intros A. unfold same_page. rewrite Z.eqb_eq. rewrite !(in_page_div cf OK) in *. rewrite A.
  split; congruence.
Qed.


(** ** Placement *)

(** Where an object may be: on its page, aligned as asked; also aligned as the language
    demands of an object of its size (every power of two up to 16 that an object of that
    size can need: [d <= n] or the next one above); in even slots, as far right as this
    allows. *)
Definition placed (cf : gcfg) (o : obj) : Prop :=
  let s := o_slot o in let p := o_ptr o in let n := o_size o in
  page cf s <= p /\ p + n <= page cf s + gc_page cf /\ p < page cf s + gc_page cf /\
  (0 < o_align o -> (o_align o | p)) /\
  (forall d, is_pow2 d -> d <= 16 -> d < 2 * n -> (d | p)) /\
  (s mod 2 = 0 -> 0 < n ->
     page cf s + gc_page cf - (p + n) < Z.max (o_align o) (Z.min 16 (2 * n))) /\
  (s mod 2 = 1 \/ n = 0 -> p = page cf s).

Lemma request_pow2 cf n al : request_ok cf n al -> 0 < n -> gcfg_ok cf ->
  let A := Z.max al (Z.min (bit_ceil n) (Z.max k_alignment stdcpp_default_new_alignment)) in
  is_pow2 A /\ A <= gc_page cf /\ al <= A /\
  A <= Z.max al (Z.min 16 (bit_ceil n)) /\ Z.min 16 (bit_ceil n) <= A /\ (al = 0 \/ is_pow2 al).
Proof.
  intros (Hn & Ha) Hn0 OK A. pose proof (page_ge cf OK) as P16.
  assert (D : is_pow2 (Z.min (bit_ceil n) (Z.max k_alignment stdcpp_default_new_alignment))).
  { apply pow2_min; [apply bit_ceil_pow2|]. exists 4. split; [lia|reflexivity]. }
  assert (E16 : Z.max k_alignment stdcpp_default_new_alignment = 16) by reflexivity.
  unfold A. rewrite E16 in *. clear A E16.
  destruct Ha as [->|(k & Hk & E & L)].
  - pose proof (pow2_pos _ D). rewrite Z.max_r by lia. repeat split; try assumption; lia.
  - assert (is_pow2 al) by (exists k; split; assumption).
    repeat split; try lia; [apply pow2_max; assumption|]. right. assumption.
Qed.

Lemma placed_left cf s n al im : gcfg_ok cf -> request_ok cf n al -> s mod 2 = 1 \/ n = 0 ->
  placed cf (mkObj s (page cf s) n al im).
Proof.
  intros OK R SN. pose proof (page_ge cf OK) as P16. pose proof (page_mult cf OK s) as PM.
  pose proof (page_pow2 cf OK) as PP.
  assert (Left : forall d, is_pow2 d -> d <= gc_page cf -> (d | page cf s)).
  { intros d Hd L. apply Z.divide_trans with (gc_page cf); [|exact PM].
    apply pow2_div; assumption. }
  destruct R as (Rn & Ra). unfold placed. cbn [o_slot o_ptr o_size o_align].
  repeat split; try lia.
  - intros Hal. destruct Ra as [->|(k & Hk & E & L)]; [lia|].
    apply Left; [exists k; split; assumption|exact L].
  - intros d Hd L1 L2. apply Left; [exact Hd|lia].
Qed.

Lemma finish_alloc_spec cf g s n al g' p : gcfg_ok cf -> request_ok cf n al ->
  finish_alloc cf g s n al = (g', p) ->
  placed cf (mkObj s p n al (ga_mem g')) /\
  (forall a, ~ in_page cf s a -> ga_mem g' a = ga_mem g a) /\
  (s mod 2 = 0 -> 0 < n -> forall i, 0 <= i < 32 -> in_page cf s (p + n + i) ->
     ga_mem g' (p + n + i) = overflow_magic s) /\
  g' = mkGa (ga_used g) (ga_count g) (ga_high g) (upd (ga_start g) s p) (upd (ga_size g) s n)
            (upd (ga_deallocs g) s 0) (ga_ovf g) (ga_prot g) (ga_mem g').
Proof.
  intros OK R E. unfold finish_alloc in E. rewrite (slot_to_addr_spec cf OK) in E.
  pose proof (page_ge cf OK) as P16. pose proof (page_mult cf OK s) as PM.
  pose proof (page_pow2 cf OK) as PP.
  assert (Left : forall d, is_pow2 d -> d <= gc_page cf -> (d | page cf s)).
  { intros d Hd L. apply Z.divide_trans with (gc_page cf); [|exact PM].
    apply pow2_div; assumption. }
  destruct (Z.ltb_spec 0 n) as [Hn|Hn].
  - unfold maybe_right_align, should_right_align in E.
    destruct (Z.eqb_spec (s mod 2) 0) as [Ev|Od]; cbn [negb] in E.
    + pose proof (request_pow2 cf n al R Hn OK) as (Apow & Ale & Aal & Asml & Abig & Alp).
      set (A := Z.max al (Z.min (bit_ceil n) _)) in *. clearbody A.
      pose proof (bit_ceil_bounds n Hn) as (_ & BC).
      set (X := page cf s + gc_page cf - n) in *.
      destruct Apow as (j & Hj & EA).
      assert (EL : Z.land X (A - 1) = X mod A).
      { rewrite EA. rewrite <- Z.land_ones by lia. f_equal. rewrite Z.ones_equiv. lia. }
      rewrite EL in E. injection E as <- <-. cbn [ga_mem].
      assert (Apos : 0 < A) by (rewrite EA; apply Z.pow_pos_nonneg; lia).
      pose proof (Z.mod_pos_bound X A Apos) as MB.
      pose proof (Z.div_mod X A ltac:(lia)) as DM.
      assert (DA : (A | X - X mod A)) by (exists (X / A); lia).
      assert (Lo : page cf s <= X - X mod A).
      { destruct (Left A) as (q & Eq); [exists j; auto|exact Ale|].
        assert (q <= X / A).
        { apply Z.div_le_lower_bound; [exact Apos|]. unfold X. destruct R as (Rn & _). lia. }
        rewrite Eq. replace (X - X mod A) with (X / A * A) by lia.
        apply Z.mul_le_mono_nonneg_r; lia. }
      split; [|split; [|split; [|reflexivity]]].
      * unfold placed. cbn [o_slot o_ptr o_size o_align]. unfold X in *.
        repeat split; try lia.
        -- intros Hal. apply Z.divide_trans with A; [|exact DA].
           apply pow2_div; [destruct Alp; [lia|assumption]|exists j; auto|exact Aal].
        -- intros d Hd L1 L2. apply Z.divide_trans with A; [|exact DA].
           apply pow2_div; [exact Hd|exists j; auto|].
           pose proof (pow2_ceil_le d n Hd Hn L2). lia.
      * intros a Ha. unfold memset.
        destruct (Z.leb_spec (X - X mod A + n) a); [|reflexivity].
        destruct (Z.ltb_spec a (X - X mod A + n + Z.min (X mod A) magic_size)); [|reflexivity].
        exfalso. apply Ha. unfold in_page, X in *. lia.
      * intros _ _ i Hi B. unfold memset.
        replace (_ <=? _) with true by lia. 
        replace (_ <? _) with true; [reflexivity|]. unfold in_page, X, magic_size in *. lia.
    + injection E as <- <-. cbn [ga_mem]. split; [|split; [reflexivity|split; [|reflexivity]]].
      * apply (placed_left cf s n al _ OK R). left.
        pose proof (Z.mod_pos_bound s 2 ltac:(lia)). lia.
      * intros; lia.
  - injection E as <- <-. cbn [ga_mem]. split; [|split; [reflexivity|split; [|reflexivity]]].
    + apply (placed_left cf s n al _ OK R). right. destruct R. lia.
    + intros; lia.
Qed.

(** ** The loop that looks at the magic bytes *)

Lemma overflow_loop_spec f mem m p :
  overflow_loop f mem m p = true <-> exists i, 0 <= i < Z.of_nat f /\ mem (p + i) <> m.
Proof.
  revert p. induction f as [|f IH]; intros p.
  - split; [discriminate|]. intros (i & Hi & _). lia.
  - cbn [overflow_loop]. destruct (Z.eqb_spec (mem p) m) as [E|E]; cbn [negb].
    + rewrite IH. split; intros (i & Hi & N).
      * exists (i + 1). split; [lia|]. replace (p + (i + 1)) with (p + 1 + i) by lia. exact N.
      * destruct (Z.eq_dec i 0) as [->|]; [rewrite Z.add_0_r in N; contradiction|].
        exists (i - 1). split; [lia|]. replace (p + 1 + (i - 1)) with (p + i) by lia. exact N.
    + split; [|reflexivity]. intros _. exists 0. split; [lia|]. rewrite Z.add_0_r. exact E.
Qed.

(** ** The invariant *)

Definition act_slot (a : act) : Z :=
  match a with
  | AReserved s _ _ | AReady s _ _ | DCounted s _ | DChecked s _ | DProtected s _ => s
  end.

(** Nobody holds the slot's object. *)
Definition idle (cf : gcfg) (g : ga) (h : hist) (s : Z) : Prop :=
  ga_ovf g s = false /\ ~ In s (h_bad h) /\
  ((ga_deallocs g s = 1 /\ 0 < ga_start g s) \/ forall p, In p (h_returned h) -> ~ in_page cf s p).

(** The slot's metadata is that of [o]. *)
Definition meta (cf : gcfg) (g : ga) (o : obj) : Prop :=
  ga_start g (o_slot o) = o_ptr o /\ ga_size g (o_slot o) = o_size o /\ placed cf o /\
  0 <= o_size o <= gc_page cf /\
  (o_slot o mod 2 = 0 -> 0 < o_size o -> forall i, 0 <= i < 32 ->
     in_page cf (o_slot o) (o_ptr o + o_size o + i) ->
     o_image o (o_ptr o + o_size o + i) = overflow_magic (o_slot o)).

Definition dies (cf : gcfg) (g : ga) (h : hist) (s p : Z) (P : obj -> Prop) : Prop :=
  exists o, In (o, p) (h_dying h) /\ o_slot o = s /\ meta cf g o /\ in_page cf s p /\
    ga_deallocs g s = 1 /\ P o.

Definition act_inv (cf : gcfg) (g : ga) (h : hist) (a : act) : Prop :=
  match a with
  | AReserved s n al => request_ok cf n al /\ ga_prot g (page cf s) = false /\ idle cf g h s
  | AReady s n al => request_ok cf n al /\ ga_prot g (page cf s) = (0 <? n) /\ idle cf g h s
  | DCounted s p => dies cf g h s p (fun o =>
      ga_prot g (page cf s) = (0 <? o_size o) /\ ga_ovf g s = false /\ ~ In s (h_bad h))
  | DChecked s p => dies cf g h s p (fun o =>
      ga_prot g (page cf s) = (0 <? o_size o) /\
      ((0 <? o_size o) && ga_ovf g s = true <-> In s (h_bad h)) /\
      (o_size o = 0 -> ga_ovf g s = false))
  | DProtected s p => dies cf g h s p (fun o =>
      ga_prot g (page cf s) = false /\ ga_ovf g s = false /\ ~ In s (h_bad h))
  end.

Definition live_inv (cf : gcfg) (g : ga) (h : hist) (o : obj) : Prop :=
  meta cf g o /\ ga_deallocs g (o_slot o) = 0 /\
  ga_prot g (page cf (o_slot o)) = (0 <? o_size o) /\ ga_ovf g (o_slot o) = false /\
  ~ In (o_slot o) (h_bad h).

Definition owners (pool : list act) (live : list obj) : list Z :=
  map act_slot pool ++ map o_slot live.

Record slots_inv (cf : gcfg) (g : ga) (ow : list Z) : Prop := {
  gi_nodup : NoDup ow;
  gi_wf : wf gpa_max_pages (ga_used g);
  gi_range : forall s, In s ow -> 0 <= s < gc_total cf;
  gi_used : forall s, 0 <= s < gpa_max_pages -> (bit (ga_used g) s = true <-> In s ow);
  gi_count : ga_count g = Z.of_nat (length ow);
  gi_max : ga_count g <= gc_max cf;
  gi_high : ga_count g <= ga_high g <= gc_max cf;
}.

Record ginv (cf : gcfg) (st : gst) (h : hist) : Prop := {
  gi_slots : slots_inv cf (gs_ga st) (owners (gs_pool st) (h_live h));
  gi_act : forall a, In a (gs_pool st) -> act_inv cf (gs_ga st) h a;
  gi_live : forall o, In o (h_live h) -> live_inv cf (gs_ga st) h o;
  gi_free : forall s, ~ In s (owners (gs_pool st) (h_live h)) ->
    ga_prot (gs_ga st) (page cf s) = false /\ idle cf (gs_ga st) h s;
  gi_dying : forall o p, In (o, p) (h_dying h) ->
    In (DCounted (o_slot o) p) (gs_pool st) \/ In (DChecked (o_slot o) p) (gs_pool st) \/
    In (DProtected (o_slot o) p) (gs_pool st);
  gi_dnodup : NoDup (map (fun d => o_slot (fst d)) (h_dying h));
  gi_prot : forall pg, ga_prot (gs_ga st) pg = true -> exists s, pg = page cf s;
  gi_returned : forall p, In p (h_returned h) -> exists s, 0 <= s < gc_total cf /\ in_page cf s p;
  gi_mem : forall o, In o (h_live h) \/ In o (map fst (h_dying h)) ->
    forall a, in_page cf (o_slot o) a ->
      ga_mem (gs_ga st) a = o_image o a \/ In a (h_dirty h);
}.

(** Frame: what the invariant of one slot looks at. *)
Record agree (cf : gcfg) (g g' : ga) (h h' : hist) (s : Z) : Prop := {
  ag_prot : ga_prot g' (page cf s) = ga_prot g (page cf s);
  ag_ovf : ga_ovf g' s = ga_ovf g s;
  ag_dea : ga_deallocs g' s = ga_deallocs g s;
  ag_start : ga_start g' s = ga_start g s;
  ag_size : ga_size g' s = ga_size g s;
  ag_bad : In s (h_bad h') <-> In s (h_bad h);
  ag_ret : forall p, In p (h_returned h') -> in_page cf s p -> In p (h_returned h);
  ag_dying : forall o p, o_slot o = s -> In (o, p) (h_dying h) -> In (o, p) (h_dying h');
}.

Lemma agree_refl cf g h s : agree cf g g h h s.
Proof. constructor; auto; reflexivity. Qed.

Lemma idle_ext cf g g' h h' s : agree cf g g' h h' s -> idle cf g h s -> idle cf g' h' s.
Proof.
  intros [] (A & B & C). unfold idle. rewrite ag_ovf0, ag_dea0, ag_start0, ag_bad0.
  split; [exact A|]. split; [exact B|]. destruct C as [C|C]; [left; exact C|right].
  intros p Hp Bp. exact (C p (ag_ret0 p Hp Bp) Bp).
Qed.

Lemma meta_ext cf g g' h h' o : agree cf g g' h h' (o_slot o) -> meta cf g o -> meta cf g' o.
Proof. intros [] M. unfold meta in *. rewrite ag_start0, ag_size0. exact M. Qed.

Lemma dies_ext cf g g' h h' s p (P Q : obj -> Prop) : agree cf g g' h h' s ->
  (forall o, P o -> Q o) -> dies cf g h s p P -> dies cf g' h' s p Q.
Proof.
  intros AG PQ (o & A & B & C & D & E & F). exists o.
  pose proof AG as []. split; [apply ag_dying0; assumption|]. split; [exact B|].
  subst s. split; [apply (meta_ext _ _ _ _ _ _ AG C)|]. split; [exact D|].
  rewrite ag_dea0. split; [exact E|]. apply PQ. exact F.
Qed.

Lemma act_inv_ext cf g g' h h' a : agree cf g g' h h' (act_slot a) ->
  act_inv cf g h a -> act_inv cf g' h' a.
Proof.
  intros AG A. pose proof AG as [].
  destruct a as [s n al|s n al|s p|s p|s p]; cbn [act_slot act_inv] in *.
  - rewrite ag_prot0. destruct A as (A & B & C). repeat split; try assumption; try apply A.
    all: try apply (idle_ext _ _ _ _ _ _ AG C).
  - rewrite ag_prot0. destruct A as (A & B & C). repeat split; try assumption; try apply A.
    all: try apply (idle_ext _ _ _ _ _ _ AG C).
  - revert A. apply dies_ext; [exact AG|]. intros o. rewrite ag_prot0, ag_ovf0, ag_bad0. auto.
  - revert A. apply dies_ext; [exact AG|]. intros o. rewrite ag_prot0, ag_ovf0, ag_bad0. auto.
  - revert A. apply dies_ext; [exact AG|]. intros o. rewrite ag_prot0, ag_ovf0, ag_bad0. auto.
Qed.

Lemma live_inv_ext cf g g' h h' o : agree cf g g' h h' (o_slot o) ->
  live_inv cf g h o -> live_inv cf g' h' o.
Proof.
  intros AG (A & B & C & D & E). pose proof AG as []. unfold live_inv.
  rewrite ag_dea0, ag_prot0, ag_ovf0, ag_bad0.
  split; [apply (meta_ext _ _ _ _ _ _ AG A)|auto].
Qed.

Lemma free_ext cf g g' h h' s : agree cf g g' h h' s ->
  ga_prot g (page cf s) = false /\ idle cf g h s ->
  ga_prot g' (page cf s) = false /\ idle cf g' h' s.
Proof.
  intros AG (A & B). pose proof AG as []. rewrite ag_prot0. split; [exact A|].
  apply (idle_ext _ _ _ _ _ _ AG B).
Qed.

(** ** Taking and returning slots *)

Lemma slots_perm cf g g' ow ow' : Permutation ow ow' ->
  ga_used g' = ga_used g -> ga_count g' = ga_count g -> ga_high g' = ga_high g ->
  slots_inv cf g ow -> slots_inv cf g' ow'.
Proof.
  intros P E1 E2 E3 []. constructor; rewrite ?E1, ?E2, ?E3; auto.
  - apply (Permutation_NoDup P gi_nodup0).
  - intros s Hs. apply gi_range0. apply (Permutation_in s (Permutation_sym P) Hs).
  - intros s Hs. rewrite (gi_used0 s Hs). split; apply Permutation_in; [|apply Permutation_sym]; exact P.
  - rewrite gi_count0. rewrite (Permutation_length P). reflexivity.
Qed.

Lemma missing (l m : list Z) : NoDup l -> (length m < length l)%nat ->
  exists s, In s l /\ ~ In s m.
Proof.
  intros ND L.
  assert (D : (exists s, In s l /\ ~ In s m) \/ incl l m).
  { clear ND L. induction l as [|x l IH]; [right; intros y []|].
    destruct (in_dec Z.eq_dec x m) as [Y|N]; [|left; exists x; split; [left; reflexivity|exact N]].
    destruct IH as [(s & A & B)|IH]; [left; exists s; split; [right; exact A|exact B]|].
    right. intros y [<-|Hy]; [exact Y|exact (IH y Hy)]. }
  destruct D as [D|D]; [exact D|]. exfalso. pose proof (NoDup_incl_length ND D). lia.
Qed.

Lemma get_free_slot_spec cf g ow idx : gcfg_ok cf -> slots_inv cf g ow ->
  ga_count g < gc_max cf -> 0 <= idx < gc_total cf ->
  exists s, get_free_slot g idx = Some s /\ 0 <= s < gc_total cf /\ ~ In s ow.
Proof.
  intros (_ & HM & HT & _) [] L Hi.
  destruct (missing (zseq 0 (Z.to_nat (gc_total cf))) ow) as (f & Hf & Nf).
  { apply zseq_NoDup. } { rewrite zseq_length. lia. }
  apply zseq_In in Hf. unfold get_free_slot.
  pose proof (find_value_backwards_spec gpa_max_pages false (ga_used g) idx gi_wf0 ltac:(lia)) as (A & B & C).
  unfold find_clear_backwards. set (r := find_value_backwards false (ga_used g) idx) in *.
  assert (free : forall s, 0 <= s < gpa_max_pages -> gbit false (ga_used g) s = true -> ~ In s ow).
  { intros s Hs G Hin. apply gi_used0 in Hin; [|exact Hs]. unfold gbit in G. rewrite Hin in G. discriminate. }
  destruct (Z.leb_spec 0 r) as [R|R].
  - exists r. split; [reflexivity|]. split; [lia|]. apply free; [lia|apply C; lia].
  - destruct (find_value_spec gpa_max_pages false (ga_used g) idx gi_wf0 ltac:(lia)) as (q & Eq & F1 & F2 & F3).
    unfold find_clear. rewrite Eq. exists q. split; [reflexivity|].
    assert (Gf : gbit false (ga_used g) f = true).
    { unfold gbit. destruct (bit (ga_used g) f) eqn:Bf; [|reflexivity].
      exfalso. apply Nf. apply gi_used0; [lia|exact Bf]. }
    destruct (Z_le_gt_dec f idx) as [FI|FI].
    { rewrite B in Gf by lia. discriminate. }
    assert (q <= f).
    { destruct (Z_le_gt_dec q f) as [|G]; [assumption|]. rewrite F2 in Gf by lia. discriminate. }
    split; [lia|]. apply free; [lia|apply F3; lia].
Qed.

Lemma reserve_spec cf g ow idx g' os : gcfg_ok cf -> slots_inv cf g ow ->
  0 <= idx < gc_total cf -> reserve_free_slot cf g idx = Some (g', os) ->
  (os = None /\ g' = g /\ ga_count g = gc_max cf) \/
  exists s, os = Some s /\ ga_count g < gc_max cf /\ 0 <= s < gc_total cf /\ ~ In s ow /\
    slots_inv cf g' (s :: ow) /\
    g' = mkGa (ga_used g') (ga_count g') (ga_high g') (ga_start g) (ga_size g) (ga_deallocs g)
              (ga_ovf g) (ga_prot g) (ga_mem g).
Proof.
  intros OK I Hi E. unfold reserve_free_slot in E. pose proof I as [].
  destruct (Z.eqb_spec (gc_max cf - ga_count g) 0) as [F|F].
  - injection E as <- <-. left. repeat split; lia.
  - right. destruct (get_free_slot_spec cf g ow idx OK I ltac:(lia) Hi) as (s & Es & Hs & Ns).
    rewrite Es in E. unfold obind in E. set (b := fst (set_bit (ga_used g) s)) in E. assert (Eb : b = fst (set_bit (ga_used g) s)) by reflexivity. clearbody b.
    cbv zeta in E. injection E as <- <-. exists s. cbn [ga_used ga_count ga_high].
    split; [reflexivity|]. split; [lia|]. split; [exact Hs|]. split; [exact Ns|].
    split; [|reflexivity]. destruct OK as (_ & HM & HT & _).
    pose proof (set_bit_spec _ _ _ _ (surjective_pairing (set_bit (ga_used g) s))) as (_ & Hb).
    rewrite <- Eb in Hb.
    constructor; cbn [ga_used ga_count ga_high fst].
    + constructor; assumption.
    + pose proof (set_bit_wf gpa_max_pages (ga_used g) s ltac:(lia) gi_wf0) as W. rewrite Eb. exact W.
    + intros t [<-|Ht]; [exact Hs|apply gi_range0; exact Ht].
    + intros t Ht. rewrite Hb, orb_true_iff, Z.eqb_eq, (gi_used0 t Ht). cbn [In]. split; intros [A|A]; auto.
    + cbn [length]. lia.
    + lia.
    + destruct (Z.ltb_spec (ga_high g) (ga_count g + 1)); lia.
Qed.

Lemma free_slot_slots cf g s ow ow' : gcfg_ok cf -> slots_inv cf g ow ->
  Permutation ow (s :: ow') -> slots_inv cf (free_slot g s) ow'.
Proof.
  intros (_ & HM & HT & _) I P. apply (slots_perm cf g g ow (s :: ow') P) in I; auto.
  destruct I. inversion gi_nodup0 as [|x l N1 N2]; subst.
  pose proof (gi_range0 s (or_introl eq_refl)) as Rs.
  unfold free_slot. destruct (clear_bit (ga_used g) s) as [b old] eqn:Eb.
  pose proof (clear_bit_spec _ _ _ _ Eb) as (_ & Hb).
  constructor; cbn [ga_used ga_count ga_high fst].
  - exact N2.
  - pose proof (clear_bit_wf gpa_max_pages (ga_used g) s ltac:(lia) gi_wf0) as W. rewrite Eb in W. exact W.
  - intros t Ht. apply gi_range0. right. exact Ht.
  - intros t Ht. rewrite Hb, andb_true_iff, negb_true_iff, Z.eqb_neq, (gi_used0 t Ht). cbn [In].
    split; [intros (A & [B|B]); [congruence|exact B]|].
    intros B. split; [intros ->; contradiction|right; exact B].
  - cbn [length] in gi_count0. lia.
  - lia.
  - lia.
Qed.

(** ** Every step keeps the invariant *)

Lemma owners_mid p1 x p2 live :
  Permutation (owners (p1 ++ x :: p2) live) (act_slot x :: owners (p1 ++ p2) live).
Proof.
  unfold owners. rewrite !map_app. cbn [map]. rewrite <- !app_assoc. cbn [app].
  apply Permutation_sym, Permutation_middle.
Qed.

Lemma owners_swap p1 x y p2 live : act_slot x = act_slot y ->
  owners (p1 ++ x :: p2) live = owners (p1 ++ y :: p2) live.
Proof. intros E. unfold owners. rewrite !map_app. cbn [map]. rewrite E. reflexivity. Qed.

Lemma in_owners_pool a pool live : In a pool -> In (act_slot a) (owners pool live).
Proof. intros H. apply in_or_app. left. apply in_map. exact H. Qed.
Lemma in_owners_live o pool live : In o live -> In (o_slot o) (owners pool live).
Proof. intros H. apply in_or_app. right. apply in_map. exact H. Qed.
Lemma in_owners s pool live : In s (owners pool live) ->
  (exists a, In a pool /\ act_slot a = s) \/ (exists o, In o live /\ o_slot o = s).
Proof.
  intros H. apply in_app_or in H as [H|H]; apply in_map_iff in H as (x & E & Hx); eauto.
Qed.

Lemma ginv_update cf st h g' pool' h' s : ginv cf st h ->
  slots_inv cf g' (owners pool' (h_live h')) ->
  (forall t, t <> s -> agree cf (gs_ga st) g' h h' t) ->
  (forall a, In a pool' -> act_slot a <> s -> In a (gs_pool st)) ->
  (forall o, In o (h_live h') -> o_slot o <> s -> In o (h_live h)) ->
  (forall t, t <> s -> In t (owners (gs_pool st) (h_live h)) -> In t (owners pool' (h_live h'))) ->
  (forall a, In a pool' -> act_slot a = s -> act_inv cf g' h' a) ->
  (forall o, In o (h_live h') -> o_slot o = s -> live_inv cf g' h' o) ->
  (~ In s (owners pool' (h_live h')) -> ga_prot g' (page cf s) = false /\ idle cf g' h' s) ->
  (forall o p, In (o, p) (h_dying h') ->
    In (DCounted (o_slot o) p) pool' \/ In (DChecked (o_slot o) p) pool' \/
    In (DProtected (o_slot o) p) pool') ->
  NoDup (map (fun d => o_slot (fst d)) (h_dying h')) ->
  (forall pg, ga_prot g' pg = true -> exists s, pg = page cf s) ->
  (forall p, In p (h_returned h') -> exists s, 0 <= s < gc_total cf /\ in_page cf s p) ->
  (forall o, In o (h_live h') \/ In o (map fst (h_dying h')) ->
    forall a, in_page cf (o_slot o) a -> ga_mem g' a = o_image o a \/ In a (h_dirty h')) ->
  ginv cf (mkGst g' pool') h'.
Proof.
  intros I S AG PA PL PO SA SL SF D1 D2 D3 D4 D5. constructor; cbn [gs_ga gs_pool]; auto.
  - intros a Ha. destruct (Z.eq_dec (act_slot a) s) as [E|N]; [apply SA; assumption|].
    apply (act_inv_ext _ _ _ _ _ _ (AG _ N)). apply (gi_act _ _ _ I). apply PA; assumption.
  - intros o Ho. destruct (Z.eq_dec (o_slot o) s) as [E|N]; [apply SL; assumption|].
    apply (live_inv_ext _ _ _ _ _ _ (AG _ N)). apply (gi_live _ _ _ I). apply PL; assumption.
  - intros t Ht. destruct (Z.eq_dec t s) as [->|N]; [apply SF; assumption|].
    apply (free_ext _ _ _ _ _ _ (AG _ N)). apply (gi_free _ _ _ I). intros B. apply Ht. apply PO; assumption.
Qed.

(** Uniqueness of the holder of a slot. *)
Lemma pool_unique p1 x p2 live a : NoDup (owners (p1 ++ x :: p2) live) ->
  In a (p1 ++ p2) -> act_slot a <> act_slot x.
Proof.
  intros ND Ha E. apply (Permutation_NoDup (owners_mid p1 x p2 live)) in ND.
  inversion ND; subst. apply H1. rewrite <- E. apply in_owners_pool. exact Ha.
Qed.
Lemma live_unique p1 x p2 live o : NoDup (owners (p1 ++ x :: p2) live) ->
  In o live -> o_slot o <> act_slot x.
Proof.
  intros ND Ha E. apply (Permutation_NoDup (owners_mid p1 x p2 live)) in ND.
  inversion ND; subst. apply H1. rewrite <- E. apply in_owners_live. exact Ha.
Qed.
Lemma live_inj pool live o o' : NoDup (owners pool live) -> In o live -> In o' live ->
  o_slot o = o_slot o' -> o = o'.
Proof.
  intros ND A B E. unfold owners in ND.
  assert (ND' : NoDup (map o_slot live)).
  { clear A B E. induction (map act_slot pool) as [|x l IH]; [exact ND|]. apply IH. inversion ND; assumption. }
  clear ND. rename ND' into ND.
  revert ND A B. induction live as [|x l IH]; [intros _ []|]. cbn [map In]. intros ND A B.
  inversion ND; subst. destruct A as [<-|A], B as [<-|B]; auto.
  - exfalso. apply H1. rewrite E. apply in_map. exact B.
  - exfalso. apply H1. rewrite <- E. apply in_map. exact A.
Qed.

Lemma in_app_mid {A} (a x : A) p1 p2 : In a (p1 ++ x :: p2) <-> a = x \/ In a (p1 ++ p2).
Proof.
  rewrite !in_app_iff. cbn [In]. split; [intros [H|[H|H]]|intros [H|[H|H]]]; auto.
Qed.

(** The pool keeps its slots: only the stage of one call changes. *)
Lemma ginv_advance cf g g' p1 p2 x y h h' : ginv cf (mkGst g (p1 ++ x :: p2)) h ->
  act_slot y = act_slot x ->
  h_live h' = h_live h -> h_dying h' = h_dying h -> h_returned h' = h_returned h ->
  h_dirty h' = h_dirty h ->
  ga_used g' = ga_used g -> ga_count g' = ga_count g -> ga_high g' = ga_high g ->
  ga_mem g' = ga_mem g ->
  (forall t, t <> act_slot x -> agree cf g g' h h' t) ->
  (forall o p, In (o, p) (h_dying h) -> o_slot o = act_slot x ->
    (DCounted (o_slot o) p = x \/ DChecked (o_slot o) p = x \/ DProtected (o_slot o) p = x) ->
    DCounted (o_slot o) p = y \/ DChecked (o_slot o) p = y \/ DProtected (o_slot o) p = y) ->
  act_inv cf g' h' y ->
  (forall pg, ga_prot g' pg = true -> exists s, pg = page cf s) ->
  ginv cf (mkGst g' (p1 ++ y :: p2)) h'.
Proof.
  intros I E HL HD HR HDi EU EC EH EM AG DY AY PR.
  pose proof (gi_nodup _ _ _ (gi_slots _ _ _ I)) as ND. cbn [gs_pool] in ND.
  assert (OW : owners (p1 ++ y :: p2) (h_live h') = owners (p1 ++ x :: p2) (h_live h)).
  { rewrite HL. apply owners_swap. exact E. }
  apply (ginv_update cf (mkGst g (p1 ++ x :: p2)) h g' _ h' (act_slot x)); auto;
    cbn [gs_pool gs_ga]; rewrite ?OW.
  - apply (slots_perm cf g g' (owners (p1 ++ x :: p2) (h_live h))); auto. apply (gi_slots _ _ _ I).
  - intros a Ha N. apply in_app_mid in Ha as [->|Ha]; [congruence|]. apply in_app_mid. right. exact Ha.
  - rewrite HL. auto.
  - auto.
  - intros a Ha Es. apply in_app_mid in Ha as [->|Ha]; [exact AY|].
    exfalso. exact (pool_unique _ _ _ _ _ ND Ha Es).
  - rewrite HL. intros o Ho Es. exfalso. exact (live_unique _ _ _ _ _ ND Ho Es).
  - intros N. exfalso. apply N. apply in_owners_pool. apply in_app_mid. left. reflexivity.
  - rewrite HD. intros o p Hd. destruct (gi_dying _ _ _ I o p Hd) as [A|[A|A]]; cbn [gs_pool] in A;
      apply in_app_mid in A as [A|A];
      try (specialize (DY o p Hd); rewrite <- A in DY; cbn [act_slot] in DY;
           specialize (DY eq_refl ltac:(auto)));
      rewrite !in_app_mid; intuition auto.
  - rewrite HD. apply (gi_dnodup _ _ _ I).
  - rewrite HR. apply (gi_returned _ _ _ I).
  - rewrite HL, HD, HDi, EM. apply (gi_mem _ _ _ I).
Qed.

Lemma prot_upd_ex cf g s v : (forall pg, ga_prot g pg = true -> exists s, pg = page cf s) ->
  forall pg, upd (ga_prot g) (page cf s) v pg = true -> exists s, pg = page cf s.
Proof.
  intros H pg. unfold upd. destruct (Z.eqb_spec pg (page cf s)) as [->|N]; [eauto|apply H].
Qed.

Lemma agree_prot cf g h s v t : gcfg_ok cf -> t <> s ->
  agree cf g (set_prot g (page cf s) v) h h t.
Proof.
  intros OK N. constructor; cbn; auto; [|reflexivity]. apply upd_other. intros E.
  apply (page_inj cf OK) in E. congruence.
Qed.

Lemma step_mprotect cf g p1 p2 s n al h : gcfg_ok cf ->
  ginv cf (mkGst g (p1 ++ AReserved s n al :: p2)) h ->
  ginv cf (mkGst (if 0 <? n then set_prot g (slot_to_addr cf s) true else g)
                 (p1 ++ AReady s n al :: p2)) h.
Proof.
  intros OK I. rewrite (slot_to_addr_spec cf OK).
  pose proof (gi_act _ _ _ I (AReserved s n al)) as A. cbn [gs_pool gs_ga] in A.
  specialize (A ltac:(apply in_app_mid; auto)) as (A1 & A2 & A3).
  destruct (Z.ltb_spec 0 n) as [L|L].
  - apply (ginv_advance cf g _ p1 p2 (AReserved s n al) (AReady s n al) h h); auto.
    + intros t N. apply agree_prot; assumption.
    + intros o p _ _ [E|[E|E]]; discriminate.
    + cbn [act_inv]. split; [exact A1|]. split; [cbn; rewrite upd_same; lia|exact A3].
    + apply prot_upd_ex. apply (gi_prot _ _ _ I).
  - apply (ginv_advance cf g _ p1 p2 (AReserved s n al) (AReady s n al) h h); auto.
    + intros t N. apply agree_refl.
    + intros o p _ _ [E|[E|E]]; discriminate.
    + cbn [act_inv]. split; [exact A1|]. split; [rewrite A2; lia|exact A3].
    + apply (gi_prot _ _ _ I).
Qed.

Lemma agree_free cf g h s t : agree cf g (free_slot g s) h h t.
Proof. constructor; cbn; auto; reflexivity. Qed.

Lemma step_start cf g pool n al idx g' s h : gcfg_ok cf -> ginv cf (mkGst g pool) h ->
  request_ok cf n al -> 0 <= idx < gc_total cf ->
  reserve_free_slot cf g idx = Some (g', Some s) ->
  ginv cf (mkGst g' (AReserved s n al :: pool)) h.
Proof.
  intros OK I R Hi E.
  destruct (reserve_spec cf g _ idx g' (Some s) OK (gi_slots _ _ _ I) Hi E)
    as [(? & _)|(s' & Es & _ & Hs & Ns & S' & EG)]; [discriminate|]. injection Es as <-.
  cbn [gs_pool] in Ns, S'.
  assert (AGt : forall t, agree cf g g' h h t) by (intros t; rewrite EG; constructor; cbn; auto; reflexivity).
  apply (ginv_update cf (mkGst g pool) h g' _ h s I); cbn [gs_pool gs_ga]; auto.
  - intros a [<-|Ha] N; [cbn in N; congruence|exact Ha].
  - intros t _ Ht. right. exact Ht.
  - intros a [<-|Ha] Ea.
    + pose proof (free_ext _ _ _ _ _ _ (AGt s) (gi_free _ _ _ I s Ns)) as (A & B).
      cbn [act_inv]. auto.
    + exfalso. apply Ns. rewrite <- Ea. apply in_owners_pool. exact Ha.
  - intros o Ho Eo. exfalso. apply Ns. rewrite <- Eo. apply in_owners_live. exact Ho.
  - intros N. exfalso. apply N. left. reflexivity.
  - intros o p Hd. destruct (gi_dying _ _ _ I o p Hd) as [A|[A|A]]; cbn [gs_pool] in A; cbn [In]; auto 6.
  - apply (gi_dnodup _ _ _ I).
  - rewrite EG. apply (gi_prot _ _ _ I).
  - apply (gi_returned _ _ _ I).
  - rewrite EG. apply (gi_mem _ _ _ I).
Qed.

Lemma step_mfail cf g p1 p2 s n al h : gcfg_ok cf ->
  ginv cf (mkGst g (p1 ++ AReserved s n al :: p2)) h ->
  ginv cf (mkGst (free_slot g s) (p1 ++ p2)) h.
Proof.
  intros OK I.
  pose proof (gi_nodup _ _ _ (gi_slots _ _ _ I)) as ND. cbn [gs_pool] in ND.
  pose proof (gi_act _ _ _ I (AReserved s n al)) as A. cbn [gs_pool gs_ga] in A.
  specialize (A ltac:(apply in_app_mid; auto)) as (A1 & A2 & A3).
  apply (ginv_update cf _ h _ _ h s I); cbn [gs_pool gs_ga].
  - apply (free_slot_slots cf g s _ _ OK (gi_slots _ _ _ I)). apply (owners_mid p1 (AReserved s n al)).
  - intros t _. apply agree_free.
  - intros a Ha _. apply in_app_mid. right. exact Ha.
  - auto.
  - intros t N Ht. apply (Permutation_in _ (owners_mid p1 (AReserved s n al) p2 _)) in Ht as [E|Ht]; [cbn in E; congruence|exact Ht].
  - intros a Ha Ea. exfalso. exact (pool_unique _ _ _ _ _ ND Ha Ea).
  - intros o Ho Eo. exfalso. exact (live_unique _ _ _ _ _ ND Ho Eo).
  - intros _. split; [exact A2|]. apply (idle_ext _ _ _ _ _ _ (agree_free cf g h s s) A3).
  - intros o p Hd. destruct (gi_dying _ _ _ I o p Hd) as [A|[A|A]]; cbn [gs_pool] in A;
      apply in_app_mid in A as [A|A]; try discriminate; auto.
  - apply (gi_dnodup _ _ _ I).
  - apply (gi_prot _ _ _ I).
  - apply (gi_returned _ _ _ I).
  - apply (gi_mem _ _ _ I).
Qed.

Lemma placed_in_page cf o : placed cf o -> in_page cf (o_slot o) (o_ptr o).
Proof. intros (A & _ & B & _). unfold in_page. lia. Qed.

Lemma dying_not_here cf st h o p x : ginv cf st h -> In (o, p) (h_dying h) -> In x (gs_pool st) ->
  (forall p, x <> DCounted (o_slot o) p /\ x <> DChecked (o_slot o) p /\ x <> DProtected (o_slot o) p) ->
  act_slot x <> o_slot o.
Proof.
  intros I Hd Hx NX E. destruct (gi_dying _ _ _ I o p Hd) as [A|[A|A]].
  all: apply in_split in A as (p1 & p2 & A).
  all: pose proof (gi_nodup _ _ _ (gi_slots _ _ _ I)) as ND; rewrite A in ND, Hx.
  all: apply in_app_mid in Hx as [Hx|Hx]; [destruct (NX p) as (? & ? & ?); contradiction|].
  all: apply (pool_unique _ _ _ _ _ ND Hx); exact E.
Qed.

Lemma step_finish cf g p1 p2 s n al g' p h : gcfg_ok cf ->
  ginv cf (mkGst g (p1 ++ AReady s n al :: p2)) h ->
  finish_alloc cf g s n al = (g', p) ->
  ginv cf (mkGst g' (p1 ++ p2)) (returns cf (mkGst g' (p1 ++ p2)) h s p n al).
Proof.
  intros OK I E.
  pose proof (gi_nodup _ _ _ (gi_slots _ _ _ I)) as ND. cbn [gs_pool] in ND.
  pose proof (gi_act _ _ _ I (AReady s n al)) as A. cbn [gs_pool gs_ga] in A.
  specialize (A ltac:(apply in_app_mid; auto)) as (A1 & A2 & A3).
  destruct (finish_alloc_spec cf g s n al g' p OK A1 E) as (PL & MEM & MAG & EG).
  set (o := mkObj s p n al (ga_mem g')) in *.
  pose proof (placed_in_page cf o PL) as Bp. cbn [o o_slot o_ptr] in Bp.
  pose proof (owners_mid p1 (AReady s n al) p2 (h_live h)) as OM. cbn [act_slot] in OM.
  assert (AG : forall t, t <> s -> agree cf g g' h (returns cf (mkGst g' (p1 ++ p2)) h s p n al) t).
  { intros t N. rewrite EG. constructor; cbn; auto; try (apply upd_other; assumption); try reflexivity.
    intros q [<-|Hq] Bq; [|exact Hq]. exfalso. apply N. apply (in_page_unique cf OK t s p Bq Bp). }
  assert (DN : forall d q, In (d, q) (h_dying h) -> o_slot d <> s).
  { intros d q Hd Es. apply (dying_not_here cf _ h d q (AReady s n al) I Hd); cbn [gs_pool act_slot].
    - apply in_app_mid. auto.
    - intros r. repeat split; discriminate.
    - symmetry. exact Es. }
  apply (ginv_update cf _ h _ _ (returns cf (mkGst g' (p1 ++ p2)) h s p n al) s I);
    unfold returns; cbn [gs_pool gs_ga h_live h_dying h_returned h_dirty h_bad].
  - apply (slots_perm cf g g' (owners (p1 ++ AReady s n al :: p2) (h_live h)));
      [|rewrite EG; reflexivity..|apply (gi_slots _ _ _ I)].
    apply (Permutation_trans OM). unfold owners. cbn [map o_slot]. apply Permutation_middle.
  - exact AG.
  - intros a Ha _. apply in_app_mid. right. exact Ha.
  - intros o' [<-|Ho] N; [cbn in N; congruence|exact Ho].
  - intros t N Ht. apply (Permutation_in _ OM) in Ht as [Et|Ht]; [congruence|].
    unfold owners in *. cbn [map]. rewrite in_app_iff in *. cbn [In]. tauto.
  - intros a Ha Ea. exfalso. exact (pool_unique _ _ _ _ _ ND Ha Ea).
  - intros o' [<-|Ho] Eo; [|exfalso; exact (live_unique _ _ _ _ _ ND Ho Eo)].
    fold o. split; [|split; [|split; [|split]]].
    + unfold meta. cbn [o o_slot o_ptr o_size o_image]. rewrite EG at 1 2. cbn [ga_start ga_size].
      rewrite !upd_same. split; [reflexivity|]. split; [reflexivity|]. split; [exact PL|].
      split; [apply A1|]. exact MAG.
    + rewrite EG. cbn [ga_deallocs o o_slot]. apply upd_same.
    + rewrite EG. cbn [ga_prot o o_slot o_size]. exact A2.
    + rewrite EG. cbn [ga_ovf o o_slot]. apply A3.
    + cbn [o o_slot h_bad]. apply A3.
  - intros N. exfalso. apply N. apply (in_owners_live o). left. reflexivity.
  - intros d q Hd. destruct (gi_dying _ _ _ I d q Hd) as [A|[A|A]]; cbn [gs_pool] in A;
      apply in_app_mid in A as [A|A]; try discriminate; auto.
  - apply (gi_dnodup _ _ _ I).
  - rewrite EG. apply (gi_prot _ _ _ I).
  - intros q [<-|Hq]; [|apply (gi_returned _ _ _ I q Hq)]. exists s. split; [|exact Bp].
    apply (gi_range _ _ _ (gi_slots _ _ _ I)). cbn [gs_pool].
    apply (Permutation_in _ (Permutation_sym OM)). left. reflexivity.
  - intros o' Ho a Ba. destruct Ho as [[<-|Ho]|Ho].
    + left. reflexivity.
    + assert (Ns : o_slot o' <> s) by (apply (live_unique _ _ _ _ _ ND Ho)).
      rewrite MEM by (intros Bs; apply Ns; apply (in_page_unique cf OK _ _ a Ba Bs)).
      destruct (gi_mem _ _ _ I o' (or_introl Ho) a Ba) as [M|M]; [left; exact M|right].
      apply filter_In. split; [exact M|]. apply negb_true_iff.
      destruct (same_page cf p a) eqn:SP; [|reflexivity]. exfalso. apply Ns.
      apply (same_page_spec cf OK s p a Bp) in SP. apply (in_page_unique cf OK _ _ a Ba SP).
    + assert (Ns : o_slot o' <> s).
      { apply in_map_iff in Ho as ((d & q) & Ed & Hd). cbn in Ed. subst d. exact (DN o' q Hd). }
      rewrite MEM by (intros Bs; apply Ns; apply (in_page_unique cf OK _ _ a Ba Bs)).
      destruct (gi_mem _ _ _ I o' (or_intror Ho) a Ba) as [M|M]; [left; exact M|right].
      apply filter_In. split; [exact M|]. apply negb_true_iff.
      destruct (same_page cf p a) eqn:SP; [|reflexivity]. exfalso. apply Ns.
      apply (same_page_spec cf OK s p a Bp) in SP. apply (in_page_unique cf OK _ _ a Ba SP).
Qed.

Lemma filter_none {A} (f : A -> bool) l : (forall x, In x l -> f x = false) -> filter f l = [].
Proof.
  induction l as [|x l IH]; intros H; [reflexivity|]. cbn [filter].
  rewrite (H x (or_introl eq_refl)). apply IH. intros y Hy. apply H. right. exact Hy.
Qed.
Lemma filter_all {A} (f : A -> bool) l : (forall x, In x l -> f x = true) -> filter f l = l.
Proof.
  induction l as [|x l IH]; intros H; [reflexivity|]. cbn [filter].
  rewrite (H x (or_introl eq_refl)), IH; [reflexivity|]. intros y Hy. apply H. right. exact Hy.
Qed.

(** A pointer the program once got, on a page whose counter is zero, belongs to a live
    object. *)
Lemma free_is_live cf st h ptr : gcfg_ok cf -> ginv cf st h -> In ptr (h_returned h) ->
  ga_deallocs (gs_ga st) (addr_to_slot cf (page_addr cf ptr)) = 0 ->
  exists o, In o (h_live h) /\ o_slot o = addr_to_slot cf (page_addr cf ptr) /\
    in_page cf (o_slot o) ptr.
Proof.
  intros OK I Hp D. destruct (gi_returned _ _ _ I ptr Hp) as (s & Hs & Bs).
  rewrite (slot_of_in cf OK s ptr Bs) in *.
  assert (NI : ~ idle cf (gs_ga st) h s).
  { intros (_ & _ & [K|K]); [lia|exact (K ptr Hp Bs)]. }
  destruct (in_dec Z.eq_dec s (owners (gs_pool st) (h_live h))) as [Y|N].
  - apply in_owners in Y as [(a & Ha & <-)|(o & Ho & <-)]; [|exists o; auto].
    exfalso. pose proof (gi_act _ _ _ I a Ha) as A.
    destruct a as [s n al|s n al|s p|s p|s p]; cbn [act_slot act_inv] in *.
    1,2: apply NI; apply A.
    all: destruct A as (o & _ & _ & _ & _ & E & _); lia.
  - exfalso. apply NI. apply (gi_free _ _ _ I s N).
Qed.

(** The live objects on the page of [ptr]: just the one. *)
Lemma split_live cf st h o ptr : gcfg_ok cf -> ginv cf st h -> In o (h_live h) ->
  in_page cf (o_slot o) ptr ->
  exists l1 l2, h_live h = l1 ++ o :: l2 /\
    filter (fun o => negb (same_page cf (o_ptr o) ptr)) (h_live h) = l1 ++ l2 /\
    filter (fun o => same_page cf (o_ptr o) ptr) (h_live h) = [o].
Proof.
  intros OK I Ho B. apply in_split in Ho as (l1 & l2 & E). exists l1, l2. split; [exact E|].
  assert (SP : forall o', In o' (h_live h) -> same_page cf (o_ptr o') ptr = true -> o' = o).
  { intros o' Ho' S.
    pose proof (gi_live _ _ _ I o' Ho') as ((_ & _ & PL & _) & _).
    apply (same_page_spec cf OK (o_slot o') (o_ptr o') ptr (placed_in_page cf o' PL)) in S.
    apply (live_inj _ _ _ _ (gi_nodup _ _ _ (gi_slots _ _ _ I)) Ho').
    - rewrite E. apply in_app_mid. auto.
    - apply (in_page_unique cf OK _ _ ptr S B). }
  assert (So : same_page cf (o_ptr o) ptr = true).
  { assert (Ho : In o (h_live h)) by (rewrite E; apply in_app_mid; auto).
    pose proof (gi_live _ _ _ I o Ho) as ((_ & _ & PL & _) & _).
    apply (same_page_spec cf OK (o_slot o) (o_ptr o) ptr (placed_in_page cf o PL)). exact B. }
  assert (ND : ~ In o (l1 ++ l2)).
  { pose proof (gi_nodup _ _ _ (gi_slots _ _ _ I)) as ND. unfold owners in ND. rewrite E in ND.
    rewrite map_app in ND. cbn [map] in ND. rewrite app_assoc in ND. apply NoDup_remove_2 in ND.
    intros H. apply ND. rewrite <- app_assoc. apply in_or_app. right. rewrite <- map_app. apply in_map. exact H. }
  assert (SF : forall o', In o' (l1 ++ l2) -> same_page cf (o_ptr o') ptr = false).
  { intros o' Ho'. destruct (same_page cf (o_ptr o') ptr) eqn:S; [|reflexivity].
    exfalso. apply ND. rewrite <- (SP o'); [exact Ho'| |exact S]. rewrite E. apply in_app_mid. auto. }
  rewrite E, !filter_app. cbn [filter]. rewrite So. cbn [negb].
  split.
  - rewrite !filter_all; [reflexivity|intros x Hx; rewrite SF; [reflexivity|apply in_or_app; auto]..].
  - rewrite !filter_none; [reflexivity|intros x Hx; apply SF; apply in_or_app; auto..].
Qed.

Lemma step_free cf g pool ptr h : gcfg_ok cf -> ginv cf (mkGst g pool) h -> In ptr (h_returned h) ->
  let s := addr_to_slot cf (page_addr cf ptr) in
  ga_deallocs g s = 0 ->
  ginv cf (mkGst (set_deallocs g s (ga_deallocs g s + 1)) (DCounted s ptr :: pool))
    (mkHist (filter (fun o => negb (same_page cf (o_ptr o) ptr)) (h_live h))
            (map (fun o => (o, ptr)) (filter (fun o => same_page cf (o_ptr o) ptr) (h_live h))
               ++ h_dying h)
            (h_returned h) (h_dirty h) (h_bad h)).
Proof.
  intros OK I Hp s D.
  destruct (free_is_live cf _ h ptr OK I Hp D) as (o & Ho & Es & Bp). fold s in Es.
  destruct (split_live cf _ h o ptr OK I Ho Bp) as (l1 & l2 & EL & -> & ->). cbn [map app].
  rewrite Es in Bp. clearbody s.
  pose proof (gi_nodup _ _ _ (gi_slots _ _ _ I)) as ND. cbn [gs_pool] in ND.
  assert (OP : Permutation (owners pool (h_live h)) (s :: owners pool (l1 ++ l2))).
  { unfold owners. rewrite EL, !map_app. cbn [map]. rewrite Es, !app_assoc.
    apply Permutation_sym, Permutation_middle. }
  pose proof (Permutation_NoDup OP ND) as ND2. inversion ND2 as [|x l N1 N2]; subst x l.
  pose proof (gi_live _ _ _ I o Ho) as (M & M2 & M3 & M4 & M5). cbn [gs_ga] in *. rewrite Es in *.
  assert (DN : forall d q, In (d, q) (h_dying h) -> o_slot d <> s).
  { intros d q Hd E. destruct (gi_dying _ _ _ I d q Hd) as [A|[A|A]]; cbn [gs_pool] in A;
      apply N1; rewrite <- E; apply (in_owners_pool _ _ (l1 ++ l2)) in A; exact A. }
  match goal with |- ginv _ _ ?h' => set (hh := h') end.
  apply (ginv_update cf _ h _ _ hh s I); unfold hh;
    cbn [gs_pool gs_ga h_live h_dying h_returned h_dirty h_bad].
  - apply (slots_perm cf g _ (owners pool (h_live h))); try reflexivity; [exact OP|apply (gi_slots _ _ _ I)].
  - intros t N. constructor; cbn; auto; try reflexivity. apply upd_other. exact N.
  - intros a [<-|Ha] N; [cbn in N; congruence|exact Ha].
  - intros o' Ho' _. rewrite EL. apply in_app_mid. auto.
  - intros t N Ht. apply (Permutation_in _ OP) in Ht as [E|Ht]; [congruence|]. right. exact Ht.
  - intros a [<-|Ha] Ea.
    + cbn [act_inv]. exists o. split; [left; reflexivity|]. split; [exact Es|].
      split; [exact M|]. split; [exact Bp|]. cbn. rewrite upd_same, D. split; [lia|]. auto.
    + exfalso. apply N1. rewrite <- Ea. apply in_owners_pool. exact Ha.
  - intros o' Ho' Eo. exfalso. apply N1. rewrite <- Eo. apply in_owners_live. exact Ho'.
  - intros N. exfalso. apply N. left. reflexivity.
  - intros d q [E|Hd].
    + injection E as <- <-. rewrite Es. left. left. reflexivity.
    + destruct (gi_dying _ _ _ I d q Hd) as [A|[A|A]]; cbn [gs_pool] in A; cbn [In]; auto 6.
  - cbn [map fst]. constructor; [|apply (gi_dnodup _ _ _ I)]. rewrite Es. intros H.
    apply in_map_iff in H as ((d & q) & E & Hd). exact (DN d q Hd E).
  - apply (gi_prot _ _ _ I).
  - apply (gi_returned _ _ _ I).
  - intros o' Ho' a Ba. apply (gi_mem _ _ _ I o'); [|exact Ba].
    destruct Ho' as [Ho'|Ho']; [left; rewrite EL; apply in_app_mid; auto|].
    cbn [map fst In] in Ho'. destruct Ho' as [<-|Ho']; [left; exact Ho|right; exact Ho'].
Qed.

Lemma overflow_changed cf st o : gcfg_ok cf -> meta cf (gs_ga st) o -> 0 < o_size o ->
  write_overflow_occurred cf (gs_ga st) (o_slot o) = true <-> changed st cf o.
Proof.
  intros OK (M1 & M2 & PL & M3 & M4) Hn. unfold write_overflow_occurred, should_right_align.
  rewrite M1, M2, (slot_to_addr_spec cf OK). unfold changed.
  destruct (Z.eqb_spec (o_slot o mod 2) 0) as [E|E]; cbn [negb].
  - rewrite overflow_loop_spec. destruct PL as (P1 & P2 & _). unfold magic_size.
    specialize (M4 E Hn). split.
    + intros (i & Hi & N). split; [exact E|]. split; [exact Hn|]. exists i.
      assert (B : in_page cf (o_slot o) (o_ptr o + o_size o + i)) by (unfold in_page; lia).
      assert (Hi2 : 0 <= i < 32) by lia.
      split; [exact Hi2|]. split; [exact B|]. rewrite (M4 i Hi2 B). exact N.
    + intros (_ & _ & i & Hi & B & N). exists i. rewrite (M4 i Hi B) in N. split; [|exact N].
      unfold in_page in B. lia.
  - split; [discriminate|]. intros (A & _). contradiction.
Qed.

Lemma not_in_bad s (l : list Z) t : t <> s -> In t (s :: l) <-> In t l.
Proof. intros N. cbn [In]. split; [intros [E|H]; [congruence|exact H]|auto]. Qed.

Lemma dying_inj cf st h d d' q q' : ginv cf st h -> In (d, q) (h_dying h) -> In (d', q') (h_dying h) ->
  o_slot d = o_slot d' -> (d, q) = (d', q').
Proof.
  intros I A B E. pose proof (gi_dnodup _ _ _ I) as ND. revert ND A B.
  induction (h_dying h) as [|x l IH]; [intros _ []|]. cbn [map In]. intros ND A B.
  inversion ND; subst. destruct A as [->|A], B as [B|B]; auto.
  - exfalso. apply H1. cbn [fst]. rewrite E. apply in_map_iff. exists (d', q'). auto.
  - subst x. exfalso. apply H1. cbn [fst]. rewrite <- E. apply in_map_iff. exists (d, q). auto.
Qed.

Lemma step_check cf g p1 p2 s p h h' : gcfg_ok cf ->
  ginv cf (mkGst g (p1 ++ DCounted s p :: p2)) h ->
  follows cf (mkGst g (p1 ++ DCounted s p :: p2)) h (EvCheck s) h' ->
  ginv cf (mkGst (if 0 <? ga_size g s
                  then if write_overflow_occurred cf g s then set_ovf g s else g
                  else g) (p1 ++ DChecked s p :: p2)) h'.
Proof.
  intros OK I F.
  pose proof (gi_act _ _ _ I (DCounted s p)) as A. cbn [gs_pool gs_ga] in A.
  specialize (A ltac:(apply in_app_mid; auto)) as (o & Hd & Es & M & Bp & Dc & A1 & A2 & A3).
  assert (SZ : ga_size g s = o_size o) by (rewrite <- Es; apply M). rewrite SZ.
  assert (CH : 0 < o_size o -> write_overflow_occurred cf g s = true <->
               changed (mkGst g (p1 ++ DCounted s p :: p2)) cf o).
  { intros Hn. rewrite <- Es. apply (overflow_changed cf (mkGst g (p1 ++ DCounted s p :: p2)) o OK M Hn). }
  assert (dyn : forall d q, In (d, q) (h_dying h) -> o_slot d = s -> (d, q) = (o, p)).
  { intros d q Hdq E. apply (dying_inj cf _ h d o q p I Hdq Hd). congruence. }
  assert (O0 : 0 <= o_size o) by apply M.
  inversion F as [| | | | |s' FG|s' d q Hdq Ed FB| |]; subst s'.
  - (* nothing changed *)
    subst h'. specialize (FG o p Hd Es).
    assert (EG : (if 0 <? o_size o then if write_overflow_occurred cf g s then set_ovf g s else g else g) = g).
    { destruct (Z.ltb_spec 0 (o_size o)) as [L|L]; [|reflexivity].
      destruct (write_overflow_occurred cf g s) eqn:W; [|reflexivity].
      exfalso. apply FG. apply CH; [exact L|reflexivity]. }
    rewrite EG. apply (ginv_advance cf g g p1 p2 (DCounted s p) (DChecked s p) h h); auto.
    + intros t _. apply agree_refl.
    + intros d q _ E [X|[X|X]]; [|discriminate..]. injection X as X1 X2. right. left. congruence.
    + exists o. split; [exact Hd|]. split; [exact Es|]. split; [exact M|]. split; [exact Bp|].
      split; [exact Dc|]. split; [exact A1|]. rewrite A2, andb_false_r. split; [|reflexivity].
      split; [discriminate|intros X; contradiction].
    + apply (gi_prot _ _ _ I).
  - (* something did *)
    pose proof (dyn d q Hdq Ed) as X. injection X as -> ->.
    assert (L : 0 < o_size o) by apply FB.
    replace (0 <? o_size o) with true by lia.
    destruct (write_overflow_occurred cf g s) eqn:W; [|exfalso; apply CH in FB; [discriminate|exact L]].
    match goal with |- ginv _ _ ?k => set (hh := k) end.
    apply (ginv_advance cf g _ p1 p2 (DCounted s p) (DChecked s p) h hh); auto.
    + intros t N. cbn [act_slot] in N. constructor; cbn; auto; try reflexivity; [apply upd_other; exact N|].
      apply not_in_bad; exact N.
    + intros d q _ E [X|[X|X]]; [|discriminate..]. injection X as X1 X2. right. left. congruence.
    + exists o. split; [exact Hd|]. split; [exact Es|]. split; [exact M|]. split; [exact Bp|].
      split; [exact Dc|]. split; [exact A1|]. cbn. rewrite upd_same.
      replace (0 <? o_size o) with true by lia. split; [|lia].
      split; [intros _; left; reflexivity|reflexivity].
    + apply (gi_prot _ _ _ I).
Qed.

Lemma step_protect cf g p1 p2 s p h : gcfg_ok cf ->
  ginv cf (mkGst g (p1 ++ DChecked s p :: p2)) h ->
  (0 <? ga_size g s) && ga_ovf g s = false ->
  ginv cf (mkGst (if 0 <? ga_size g s then set_prot g (page_addr cf p) false else g)
                 (p1 ++ DProtected s p :: p2)) h.
Proof.
  intros OK I NO.
  pose proof (gi_act _ _ _ I (DChecked s p)) as A. cbn [gs_pool gs_ga] in A.
  specialize (A ltac:(apply in_app_mid; auto)) as (o & Hd & Es & M & Bp & Dc & A1 & A2 & A3).
  assert (SZ : ga_size g s = o_size o) by (rewrite <- Es; apply M). rewrite SZ in *.
  assert (O0 : 0 <= o_size o) by apply M.
  rewrite (page_addr_in cf OK s p Bp).
  assert (NB : ~ In s (h_bad h)) by (rewrite <- A2; rewrite NO; discriminate).
  assert (NV : ga_ovf g s = false).
  { destruct (Z.ltb_spec 0 (o_size o)) as [L|L]; [exact NO|apply A3; lia]. }
  destruct (Z.ltb_spec 0 (o_size o)) as [L|L].
  - apply (ginv_advance cf g _ p1 p2 (DChecked s p) (DProtected s p) h h); auto.
    + intros t N. apply agree_prot; assumption.
    + intros d q _ E [X|[X|X]]; try discriminate. injection X as X1 X2. right. right. congruence.
    + exists o. split; [exact Hd|]. split; [exact Es|]. split; [exact M|]. split; [exact Bp|].
      split; [exact Dc|]. cbn. rewrite upd_same. auto.
    + apply prot_upd_ex. apply (gi_prot _ _ _ I).
  - apply (ginv_advance cf g _ p1 p2 (DChecked s p) (DProtected s p) h h); auto.
    + intros t N. apply agree_refl.
    + intros d q _ E [X|[X|X]]; try discriminate. injection X as X1 X2. right. right. congruence.
    + exists o. split; [exact Hd|]. split; [exact Es|]. split; [exact M|]. split; [exact Bp|].
      split; [exact Dc|]. auto.
    + apply (gi_prot _ _ _ I).
Qed.

Lemma page_pos cf s : gcfg_ok cf -> 0 <= s -> 0 < page cf s.
Proof.
  intros OK Hs. pose proof (page_ge cf OK). destruct OK as (_ & _ & _ & _ & B). unfold page. nia.
Qed.

Lemma step_freed cf g p1 p2 s p h : gcfg_ok cf ->
  ginv cf (mkGst g (p1 ++ DProtected s p :: p2)) h ->
  ginv cf (mkGst (free_slot g s) (p1 ++ p2))
    (mkHist (h_live h) (filter (fun d => negb (o_slot (fst d) =? s)) (h_dying h))
            (h_returned h) (h_dirty h) (h_bad h)).
Proof.
  intros OK I.
  pose proof (gi_nodup _ _ _ (gi_slots _ _ _ I)) as ND. cbn [gs_pool] in ND.
  pose proof (gi_act _ _ _ I (DProtected s p)) as A. cbn [gs_pool gs_ga] in A.
  specialize (A ltac:(apply in_app_mid; auto)) as (o & Hd & Es & M & Bp & Dc & A1 & A2 & A3).
  match goal with |- ginv _ _ ?k => set (hh := k) end.
  apply (ginv_update cf _ h _ _ hh s I); cbn [hh gs_pool gs_ga h_live h_dying h_returned h_dirty h_bad].
  - apply (free_slot_slots cf g s _ _ OK (gi_slots _ _ _ I)). apply (owners_mid p1 (DProtected s p)).
  - intros t N. constructor; cbn; auto; try reflexivity.
    intros d q E Hq. apply filter_In. split; [exact Hq|]. cbn [fst]. apply negb_true_iff, Z.eqb_neq. congruence.
  - intros a Ha _. apply in_app_mid. right. exact Ha.
  - auto.
  - intros t N Ht. apply (Permutation_in _ (owners_mid p1 (DProtected s p) p2 _)) in Ht as [E|Ht]; [cbn in E; congruence|exact Ht].
  - intros a Ha Ea. exfalso. exact (pool_unique _ _ _ _ _ ND Ha Ea).
  - intros o' Ho Eo. exfalso. exact (live_unique _ _ _ _ _ ND Ho Eo).
  - intros _. split; [exact A1|]. split; [exact A2|]. split; [exact A3|]. left.
    split; [exact Dc|]. destruct M as (M1 & _ & (PL & _) & _). rewrite <- Es. cbn. rewrite M1.
    assert (0 <= s < gc_total cf).
    { apply (gi_range _ _ _ (gi_slots _ _ _ I)). apply (in_owners_pool (DProtected s p)).
      apply in_app_mid. auto. }
    pose proof (page_pos cf s OK ltac:(lia)). rewrite Es in *. lia.
  - intros d q Hq. apply filter_In in Hq as (Hq & Nq). cbn [fst] in Nq. apply negb_true_iff, Z.eqb_neq in Nq.
    destruct (gi_dying _ _ _ I d q Hq) as [A|[A|A]]; cbn [gs_pool] in A;
      apply in_app_mid in A as [A|A]; try discriminate; auto. injection A as A _. contradiction.
  - pose proof (gi_dnodup _ _ _ I) as N2. clear - N2.
    induction (h_dying h) as [|x l IH]; [constructor|]. cbn [filter map] in *. inversion N2; subst.
    destruct (negb _); [|apply IH; assumption]. cbn [map]. constructor; [|apply IH; assumption].
    intros H. apply H1. apply in_map_iff in H as (y & E & Hy). apply filter_In in Hy as (Hy & _).
    apply in_map_iff. exists y. auto.
  - apply (gi_prot _ _ _ I).
  - apply (gi_returned _ _ _ I).
  - intros o' Ho a Ba. apply (gi_mem _ _ _ I o'); [|exact Ba]. destruct Ho as [Ho|Ho]; [auto|right].
    apply in_map_iff in Ho as (x & E & Hx). apply filter_In in Hx as (Hx & _). apply in_map_iff. exists x. auto.
Qed.

Lemma step_write cf g pool a v h : ginv cf (mkGst g pool) h ->
  ginv cf (mkGst (set_mem g (upd (ga_mem g) a v)) pool)
    (mkHist (h_live h) (h_dying h) (h_returned h) (a :: h_dirty h) (h_bad h)).
Proof.
  intros I. constructor; cbn [gs_ga gs_pool h_live h_dying h_returned h_dirty h_bad].
  - apply (slots_perm cf g _ (owners pool (h_live h))); try reflexivity. apply (gi_slots _ _ _ I).
  - intros x Hx. apply (act_inv_ext cf g _ h); [constructor; cbn; auto; reflexivity|]. apply (gi_act _ _ _ I x Hx).
  - intros x Hx. apply (live_inv_ext cf g _ h); [constructor; cbn; auto; reflexivity|]. apply (gi_live _ _ _ I x Hx).
  - intros s Hs. apply (free_ext cf g _ h); [constructor; cbn; auto; reflexivity|]. apply (gi_free _ _ _ I s Hs).
  - apply (gi_dying _ _ _ I).
  - apply (gi_dnodup _ _ _ I).
  - apply (gi_prot _ _ _ I).
  - apply (gi_returned _ _ _ I).
  - intros o Ho b Bb. cbn [In set_mem ga_mem]. unfold upd.
    destruct (Z.eqb_spec b a) as [->|N]; [right; left; reflexivity|].
    destruct (gi_mem _ _ _ I o Ho b Bb) as [X|X]; auto.
Qed.

Lemma ginv_init cf : gcfg_ok cf -> ginv cf (mkGst ga_init []) hist0.
Proof.
  intros (_ & HM & HT & _). constructor; cbn [gs_ga gs_pool hist0 h_live h_dying h_returned h_dirty h_bad owners map app].
  - constructor; cbn [ga_init ga_used ga_count ga_high length]; try lia.
    + constructor.
    + apply clear_all_wf.
    + intros s [].
    + intros s Hs. unfold clear_all, bit. rewrite Z.bits_0. split; [discriminate|intros []].
  - intros a [].
  - intros a [].
  - intros s _. split; [reflexivity|]. split; [reflexivity|]. split; [intros []|]. right. intros p [].
  - intros o p [].
  - constructor.
  - intros pg. discriminate.
  - intros p [].
  - intros o [[]|[]].
Qed.

Lemma greach_inv cf st h : gcfg_ok cf -> greach cf st h -> ginv cf st h.
Proof.
  intros OK R. induction R as [|st h ev st' h' R I S F|st h s p n al st' R I S].
  - apply ginv_init. exact OK.
  - inversion S; subst.
    + inversion F; subst. eapply step_start; eauto.
    + inversion F; subst.
      match goal with E : reserve_free_slot _ _ _ = _ |- _ =>
        destruct (reserve_spec _ _ _ _ _ _ OK (gi_slots _ _ _ I) ltac:(eassumption) E)
          as [(_ & -> & _)|(? & ? & _)]; [exact I|discriminate] end.
    + inversion F; subst. apply step_mprotect; assumption.
    + inversion F; subst. eapply step_mfail; eauto.
    + inversion F.
    + inversion F; subst. apply step_free; assumption.
    + eapply step_check; eauto.
    + inversion F; subst. apply step_protect; assumption.
    + inversion F; subst. eapply step_freed; eauto.
    + inversion F; subst. apply step_write. assumption.
  - inversion S; subst. eapply step_finish; eauto.
Qed.

(** ** C29: the theorems *)

(** Objects: each has a page of its own inside the pool, with an object-free page on
    either side that belongs to the pool too; it is placed as [placed] says; and (unless
    its size is 0) all its bytes can be used. *)
Theorem guarded_objects cf st h : gcfg_ok cf -> greach cf st h ->
  NoDup (map o_slot (h_live h)) /\
  (forall o, In o (h_live h) ->
     0 <= o_slot o < gc_total cf /\ placed cf o /\
     gc_base cf + gc_page cf <= page cf (o_slot o) /\
     page cf (o_slot o) + 2 * gc_page cf <= gc_end cf /\
     (forall a, o_ptr o <= a < o_ptr o + o_size o -> accessible cf (gs_ga st) a = true)) /\
  (forall o o', In o (h_live h) -> In o' (h_live h) -> o_slot o < o_slot o' ->
     page cf (o_slot o) + 2 * gc_page cf <= page cf (o_slot o')).
Proof.
  intros OK R. pose proof (greach_inv cf st h OK R) as I.
  pose proof (gi_slots _ _ _ I) as S. pose proof (page_ge cf OK) as P16.
  split; [|split].
  - pose proof (gi_nodup _ _ _ S) as ND. unfold owners in ND.
    induction (map act_slot (gs_pool st)) as [|x l IH]; [exact ND|]. apply IH. inversion ND; assumption.
  - intros o Ho. pose proof (gi_live _ _ _ I o Ho) as ((_ & _ & PL & _) & _ & PR & _).
    assert (B : 0 <= o_slot o < gc_total cf) by (apply (gi_range _ _ _ S), in_owners_live, Ho).
    split; [exact B|]. split; [exact PL|]. unfold page at 1 2, gc_end.
    split; [nia|]. split; [nia|]. intros a Ha. unfold accessible. destruct PL as (P1 & P2 & _).
    rewrite (page_addr_in cf OK (o_slot o) a) by (unfold in_page; lia). rewrite PR. lia.
  - intros o o' _ _ L. unfold page. nia.
Qed.

(** Accesses: a byte of the pool can be accessed only on the page of an object that the
    program holds, that a running free has not yet dealt with, or that an allocation in
    progress is about to return. *)
Theorem guarded_access cf st h a : gcfg_ok cf -> greach cf st h ->
  accessible cf (gs_ga st) a = true ->
  (exists o, In o (h_live h) /\ 0 < o_size o /\ in_page cf (o_slot o) a) \/
  (exists o ptr, In (o, ptr) (h_dying h) /\ 0 < o_size o /\ in_page cf (o_slot o) a) \/
  (exists s n al, In (AReady s n al) (gs_pool st) /\ 0 < n /\ in_page cf s a /\
     forall o, In o (h_live h) -> o_slot o <> s).
Proof.
  intros OK R A. pose proof (greach_inv cf st h OK R) as I. unfold accessible in A.
  destruct (gi_prot _ _ _ I _ A) as (s & E). pose proof (page_addr_inv cf OK s a E) as B. rewrite E in A.
  destruct (in_dec Z.eq_dec s (owners (gs_pool st) (h_live h))) as [Y|N].
  2: { destruct (gi_free _ _ _ I s N) as (F & _). congruence. }
  apply in_owners in Y as [(x & Hx & <-)|(o & Ho & <-)].
  - pose proof (gi_act _ _ _ I x Hx) as X.
    destruct x as [t n al|t n al|t p|t p|t p]; cbn [act_slot act_inv] in *.
    + destruct X as (_ & F & _). congruence.
    + destruct X as (_ & F & _). right. right. exists t, n, al. split; [exact Hx|].
      split; [rewrite F in A; lia|]. split; [exact B|]. intros o Ho Eo.
      apply in_split in Hx as (p1 & p2 & Ep).
      pose proof (gi_nodup _ _ _ (gi_slots _ _ _ I)) as ND. rewrite Ep in ND.
      exact (live_unique _ _ _ _ _ ND Ho Eo).
    + destruct X as (o & Hd & Es & _ & _ & _ & F & _). right. left. exists o, p.
      split; [exact Hd|]. split; [rewrite F in A; lia|rewrite Es; exact B].
    + destruct X as (o & Hd & Es & _ & _ & _ & F & _). right. left. exists o, p.
      split; [exact Hd|]. split; [rewrite F in A; lia|rewrite Es; exact B].
    + destruct X as (o & _ & _ & _ & _ & _ & F & _). congruence.
  - left. exists o. split; [exact Ho|]. destruct (gi_live _ _ _ I o Ho) as (_ & _ & F & _).
    split; [rewrite F in A; lia|exact B].
Qed.

(** In particular the pages around the objects are never accessible. *)
Theorem guarded_guards cf st h a : gcfg_ok cf -> greach cf st h ->
  (forall s, 0 <= s < gc_total cf -> ~ in_page cf s a) ->
  accessible cf (gs_ga st) a = false.
Proof.
  intros OK R N. destruct (accessible cf (gs_ga st) a) eqn:A; [|reflexivity]. exfalso.
  pose proof (greach_inv cf st h OK R) as I. pose proof (gi_slots _ _ _ I) as S.
  destruct (guarded_access cf st h a OK R A) as [(o & Ho & _ & B)|[(o & p & Hd & _ & B)|(s & n & al & Hx & _ & B & _)]].
  - apply (N (o_slot o)); [|exact B]. apply (gi_range _ _ _ S), in_owners_live, Ho.
  - apply (N (o_slot o)); [|exact B]. apply (gi_range _ _ _ S).
    destruct (gi_dying _ _ _ I o p Hd) as [X|[X|X]]; apply (in_owners_pool _ _ (h_live h)) in X; exact X.
  - apply (N s); [|exact B]. apply (gi_range _ _ _ S). apply (in_owners_pool _ _ (h_live h)) in Hx. exact Hx.
Qed.

(** Frees: a pointer the program once got is accepted if and only if there is a live
    object on its page; otherwise the call is stopped as a double free.  (So of several
    frees of one object, however they are scheduled, only the first gets through.) *)
Theorem guarded_free cf st h ptr : gcfg_ok cf -> greach cf st h -> In ptr (h_returned h) ->
  ((exists st', gstep cf st (EvFreeing ptr) (Some st')) <->
   (exists o, In o (h_live h) /\ in_page cf (o_slot o) ptr)) /\
  (gstep cf st (EvCrash GDoubleFree ptr) None <->
   ~ (exists o, In o (h_live h) /\ in_page cf (o_slot o) ptr)).
Proof.
  intros OK R Hp. pose proof (greach_inv cf st h OK R) as I.
  assert (LV : ga_deallocs (gs_ga st) (addr_to_slot cf (page_addr cf ptr)) = 0 <->
               exists o, In o (h_live h) /\ in_page cf (o_slot o) ptr).
  { split.
    - intros D. destruct (free_is_live cf st h ptr OK I Hp D) as (o & Ho & _ & B). eauto.
    - intros (o & Ho & B). rewrite (slot_of_in cf OK (o_slot o) ptr B). apply (gi_live _ _ _ I o Ho). }
  destruct st as [g pool]. cbn [gs_ga] in LV. split; rewrite <- LV.
  - split.
    + intros (st' & S). inversion S; subst. assumption.
    + intros D. eexists. apply gs_free with (slot := addr_to_slot cf (page_addr cf ptr)); auto.
  - split.
    + intros S. inversion S; subst. assumption.
    + intros D. apply gs_double_free with (slot := addr_to_slot cf (page_addr cf ptr)); auto.
Qed.

(** How a free ends.  It returns only for the very pointer the object was handed out
    with, and only if no byte was found changed; it is stopped for an overflow only if one
    was, and for a wrong pointer only if it was given another one. *)
Theorem guarded_free_outcome cf st h : gcfg_ok cf -> greach cf st h ->
  (forall s st', gstep cf st (EvFreed s) (Some st') ->
     exists o, In (o, o_ptr o) (h_dying h) /\ o_slot o = s /\ ~ In s (h_bad h)) /\
  (forall ptr, gstep cf st (EvCrash GBufferOverflowOnDealloc ptr) None ->
     exists o, In (o, ptr) (h_dying h) /\ In (o_slot o) (h_bad h)) /\
  (forall ptr, gstep cf st (EvCrash GUnknown ptr) None ->
     exists o, In (o, ptr) (h_dying h) /\ ptr <> o_ptr o).
Proof.
  intros OK R. pose proof (greach_inv cf st h OK R) as I. split; [|split].
  - intros s st' S. inversion S; subst.
    pose proof (gi_act _ _ _ I (DProtected s (ga_start g s)) ltac:(apply in_app_mid; auto))
      as (o & Hd & Es & M & _ & _ & _ & _ & NB).
    exists o. destruct M as (M & _). cbn [gs_ga] in M, Hd. rewrite <- M, Es. auto.
  - intros ptr S. inversion S; subst.
    pose proof (gi_act _ _ _ I (DChecked slot ptr) ltac:(apply in_app_mid; auto))
      as (o & Hd & Es & M & _ & _ & _ & NB & _).
    exists o. split; [exact Hd|]. rewrite Es. apply NB. destruct M as (_ & M2 & _). cbn [gs_ga] in *.
    rewrite <- M2, Es. assumption.
  - intros ptr S. inversion S; subst.
    pose proof (gi_act _ _ _ I (DProtected slot ptr) ltac:(apply in_app_mid; auto))
      as (o & Hd & Es & M & _ & _ & _ & _ & NB).
    exists o. split; [exact Hd|]. destruct M as (M & _). cbn [gs_ga] in M. rewrite <- M, Es. auto.
Qed.

(** And it does end: whatever the others do, the call that is freeing [o] can take its
    next step, and these steps lead to one of the three ends. *)
Theorem guarded_free_progress cf st h o ptr : gcfg_ok cf -> greach cf st h ->
  In (o, ptr) (h_dying h) ->
  (exists st', gstep cf st (EvCheck (o_slot o)) (Some st') /\ In (DChecked (o_slot o) ptr) (gs_pool st')) \/
  (exists st', gstep cf st EvInternal (Some st') /\ In (DProtected (o_slot o) ptr) (gs_pool st')) \/
  (In (o_slot o) (h_bad h) /\ gstep cf st (EvCrash GBufferOverflowOnDealloc ptr) None) \/
  (ptr = o_ptr o /\ exists st', gstep cf st (EvFreed (o_slot o)) (Some st')) \/
  (ptr <> o_ptr o /\ gstep cf st (EvCrash GUnknown ptr) None).
Proof.
  intros OK R Hd. pose proof (greach_inv cf st h OK R) as I.
  destruct st as [g pool].
  destruct (gi_dying _ _ _ I o ptr Hd) as [X|[X|X]]; cbn [gs_pool] in X;
    pose proof (gi_act _ _ _ I _ X) as A; cbn [act_inv gs_ga] in A;
    destruct A as (o' & Hd' & Es & M & _ & _ & A);
    pose proof (dying_inj cf _ h o' o ptr ptr I Hd' Hd Es) as E; injection E as ->;
    apply in_split in X as (p1 & p2 & ->).
  - left. eexists. split; [apply gs_check; reflexivity|]. apply in_app_mid. auto.
  - right. destruct A as (_ & A & _). destruct ((0 <? o_size o) && ga_ovf g (o_slot o)) eqn:V.
    + right. left. split; [apply A; reflexivity|]. apply gs_overflow.
      destruct M as (_ & M2 & _). rewrite M2. exact V.
    + left. eexists. split; [apply gs_protect; [|reflexivity]|apply in_app_mid; auto].
      destruct M as (_ & M2 & _). rewrite M2. exact V.
  - right. right. right. destruct M as (M & _).
    destruct (Z.eq_dec ptr (o_ptr o)) as [->|N].
    + left. split; [reflexivity|]. eexists. apply gs_freed. exact M.
    + right. split; [exact N|]. apply gs_corrupt. congruence.
Qed.

(** No false alarms: a byte behind the object that has changed was written by the
    program. *)
Theorem guarded_changed_written cf st h o : gcfg_ok cf -> greach cf st h ->
  In o (h_live h) \/ In o (map fst (h_dying h)) -> changed st cf o ->
  exists i, 0 <= i < 32 /\ In (o_ptr o + o_size o + i) (h_dirty h).
Proof.
  intros OK R Ho (_ & _ & i & Hi & B & N). exists i. split; [exact Hi|].
  destruct (gi_mem _ _ _ (greach_inv cf st h OK R) o Ho _ B) as [E|D]; [contradiction|exact D].
Qed.

(** Capacity: objects held and calls in progress never exceed the limit; allocation is
    refused only when they have reached it, and otherwise, whatever the random number, it
    gets a page nobody uses. *)
Theorem guarded_capacity cf st h : gcfg_ok cf -> greach cf st h ->
  let n := Z.of_nat (length (gs_pool st) + length (h_live h)) in
  n <= gc_max cf /\
  (forall st', gstep cf st EvNoSlots (Some st') -> n = gc_max cf) /\
  (n < gc_max cf -> forall size al idx, request_ok cf size al -> 0 <= idx < gc_total cf ->
     exists s g', gstep cf st EvStart (Some (mkGst g' (AReserved s size al :: gs_pool st))) /\
       0 <= s < gc_total cf /\ ~ In s (map o_slot (h_live h)) /\
       ~ In s (map act_slot (gs_pool st))).
Proof.
  intros OK R n. pose proof (greach_inv cf st h OK R) as I. pose proof (gi_slots _ _ _ I) as S.
  assert (EN : ga_count (gs_ga st) = n).
  { rewrite (gi_count _ _ _ S). unfold n, owners. rewrite app_length, !map_length. reflexivity. }
  split; [rewrite <- EN; apply (gi_max _ _ _ S)|]. split.
  - intros st' X. inversion X; subst. rewrite <- EN.
    match goal with Hi : 0 <= ?i < _, E : reserve_free_slot _ _ ?i = _ |- _ =>
      destruct (reserve_spec _ _ _ _ _ _ OK S Hi E) as [(_ & _ & Q)|(? & Q & _)] end;
      [exact Q|discriminate Q].
  - intros L size al idx RQ Hi. rewrite <- EN in L.
    destruct (get_free_slot_spec cf (gs_ga st) _ idx OK S L Hi) as (s & Es & Hs & Ns).
    destruct st as [g pool]. cbn [gs_ga gs_pool] in *.
    exists s. eexists. split; [apply (gs_start cf g pool size al idx); [exact RQ|exact Hi|]|].
    + unfold reserve_free_slot. replace (gc_max cf - ga_count g =? 0) with false by lia.
      rewrite Es. reflexivity.
    + split; [exact Hs|]. unfold owners in Ns. rewrite in_app_iff in Ns. tauto.
Qed.

(** Reports: which object an address is attributed to. *)
Theorem guarded_nearest cf addr s : gcfg_ok cf -> 0 <= s < gc_total cf ->
  gc_base cf <= addr < gc_end cf ->
  (* on its page *)
  (page cf s <= addr < page cf s + gc_page cf \/
   (* in the nearer half of the page before or after it *)
   page cf s - gc_page cf / 2 <= addr < page cf s \/
   page cf s + gc_page cf <= addr < page cf s + gc_page cf + gc_page cf / 2 \/
   (* anywhere before the first, or after the last *)
   (s = 0 /\ addr < page cf s) \/ (s = gc_total cf - 1 /\ page cf s <= addr)) ->
  nearest_slot cf addr = s.
Proof.
  intros OK Hs HA C. unfold nearest_slot. apply (slot_of_in cf OK). unfold nearest_valid_page.
  rewrite (first_page_spec cf OK). pose proof (page_ge cf OK) as P16.
  assert (EV : gc_page cf = 2 * (gc_page cf / 2)).
  { destruct (page_pow2 cf OK) as (k & Hk & E). destruct (Z.eq_dec k 0) as [->|]; [cbn in E; lia|].
    rewrite E. replace k with (Z.succ (k - 1)) by lia. rewrite Z.pow_succ_r by lia.
    rewrite Z.mul_comm, Z.div_mul by lia. lia. }
  set (H := gc_page cf / 2) in *. clearbody H.
  unfold gc_end in HA. unfold page, in_page in *. unfold page in *.
  set (P := gc_page cf) in *. set (b := gc_base cf) in *. set (T := gc_total cf) in *.
  destruct (Z.ltb_spec addr (b + P)) as [L|L].
  { (* before the first page *)
    assert (s = 0); [|nia]. destruct C as [C|[C|[C|[C|C]]]]; nia. }
  destruct (Z.ltb_spec (b + P + 2 * (T - 1) * P) addr) as [L2|L2].
  { assert (s = T - 1); [|nia]. destruct C as [C|[C|[C|[C|C]]]]; nia. }
  set (off := addr - (b + P)) in *.
  assert (Cs : (2 * s * P <= off < 2 * s * P + P) \/ (2 * s * P - H <= off < 2 * s * P) \/
               (2 * s * P + P <= off < 2 * s * P + P + H)).
  { unfold off. destruct C as [C|[C|[C|[C|C]]]]; nia. }
  destruct Cs as [Cs|[Cs|Cs]].
  - assert (E : off / P = 2 * s) by (symmetry; apply Z.div_unique with (off - 2 * s * P); lia).
    rewrite E. replace (2 * s mod 2) with 0 by (rewrite Z.mul_comm, Z.mod_mul; lia). cbn [Z.eqb].
    unfold off in *. nia.
  - assert (E : off / P = 2 * s - 1) by (symmetry; apply Z.div_unique with (off - 2 * s * P + P); lia).
    rewrite E. replace ((2 * s - 1) mod 2) with 1
      by (apply Z.mod_unique with (s - 1); lia). cbn [Z.eqb].
    assert (E2 : off / H = 4 * s - 1) by (symmetry; apply Z.div_unique with (off - 4 * s * H + H); nia).
    rewrite E2. replace ((4 * s - 1) mod 2) with 1
      by (apply Z.mod_unique with (2 * s - 1); lia). cbn [Z.eqb].
    unfold off in *. nia.
  - assert (E : off / P = 2 * s + 1) by (symmetry; apply Z.div_unique with (off - 2 * s * P - P); lia).
    rewrite E. replace ((2 * s + 1) mod 2) with 1
      by (apply Z.mod_unique with s; lia). cbn [Z.eqb].
    assert (E2 : off / H = 4 * s + 2) by (symmetry; apply Z.div_unique with (off - 4 * s * H - 2 * H); nia).
    rewrite E2. replace ((4 * s + 2) mod 2) with 0
      by (apply Z.mod_unique with (2 * s + 1); lia). cbn [Z.eqb].
    unfold off in *. nia.
Qed.

(** Reports: what the report says about an address near a live object, and about one
    near a page whose object has been freed. *)
Theorem guarded_report cf st h addr : gcfg_ok cf -> greach cf st h ->
  (forall o, In o (h_live h) -> nearest_slot cf addr = o_slot o ->
     offset_and_size cf (gs_ga st) addr = (addr - o_ptr o, o_size o) /\
     error_type cf (gs_ga st) addr =
       if addr <? o_ptr o then GBufferUnderflow
       else if o_ptr o + o_size o <=? addr then GBufferOverflow else GUnknown) /\
  (forall ptr s, In ptr (h_returned h) -> in_page cf s ptr -> nearest_slot cf addr = s ->
     ~ In s (map act_slot (gs_pool st)) -> ~ In s (map o_slot (h_live h)) ->
     error_type cf (gs_ga st) addr = GUseAfterFree) /\
  (forall o ptr, In o (h_live h) -> in_page cf (o_slot o) ptr ->
     requested_size cf (gs_ga st) ptr = o_size o).
Proof.
  intros OK R. pose proof (greach_inv cf st h OK R) as I. pose proof (gi_slots _ _ _ I) as S.
  split; [|split].
  - intros o Ho E. destruct (gi_live _ _ _ I o Ho) as ((M1 & M2 & (PL & _) & _) & D & _ & V & _).
    unfold offset_and_size, error_type. rewrite E, M1, M2, D, V. split; [reflexivity|].
    assert (B : 0 <= o_slot o < gc_total cf) by (apply (gi_range _ _ _ S), in_owners_live, Ho).
    pose proof (page_pos cf (o_slot o) OK ltac:(lia)).
    replace (o_ptr o =? 0) with false by lia. reflexivity.
  - intros ptr s Hp Bp E N1 N2.
    assert (N : ~ In s (owners (gs_pool st) (h_live h))) by (unfold owners; rewrite in_app_iff; tauto).
    destruct (gi_free _ _ _ I s N) as (_ & V & _ & [(D & P)|D]); [|destruct (D ptr Hp Bp)].
    unfold error_type. rewrite E, D, V. replace (ga_start (gs_ga st) s =? 0) with false by lia. reflexivity.
  - intros o ptr Ho B. unfold requested_size. rewrite (slot_of_in cf OK (o_slot o) ptr B).
    apply (gi_live _ _ _ I o Ho).
Qed.

(** Use after free: an access to the page of a freed object, before the page is used
    again, is stopped and reported as what it is. *)
Theorem guarded_freed cf st h ptr addr s : gcfg_ok cf -> greach cf st h ->
  In ptr (h_returned h) -> in_page cf s ptr -> in_page cf s addr ->
  (forall o, In o (h_live h) -> o_slot o <> s) -> ~ In s (map act_slot (gs_pool st)) ->
  accessible cf (gs_ga st) addr = false /\ gstep cf st (EvFault GUseAfterFree addr) None.
Proof.
  intros OK R Hp Bp Ba NL NP. pose proof (greach_inv cf st h OK R) as I.
  assert (N : ~ In s (owners (gs_pool st) (h_live h))).
  { unfold owners. rewrite in_app_iff. intros [X|X]; [contradiction|].
    apply in_map_iff in X as (o & E & Ho). exact (NL o Ho E). }
  destruct (gi_free _ _ _ I s N) as (F & _).
  assert (A : accessible cf (gs_ga st) addr = false).
  { unfold accessible. rewrite (page_addr_in cf OK s addr Ba). exact F. }
  split; [exact A|].
  assert (Hs : 0 <= s < gc_total cf).
  { destruct (gi_returned _ _ _ I ptr Hp) as (t & Ht & Bt). rewrite (in_page_unique cf OK s t ptr Bp Bt). exact Ht. }
  assert (IN : gc_base cf <= addr < gc_end cf).
  { unfold in_page, page, gc_end in *. pose proof (page_ge cf OK). nia. }
  assert (E : error_type cf (gs_ga st) addr = GUseAfterFree).
  { apply (guarded_report cf st h addr OK R) with (ptr := ptr) (s := s); auto.
    - apply (guarded_nearest cf addr s OK Hs IN). left. exact Ba.
    - intros X. apply N. unfold owners. apply in_or_app. right. exact X. }
  destruct st as [g pool]. cbn [gs_ga] in *. rewrite <- E. apply gs_fault; assumption.
Qed.

(** ** The hypotheses are met *)

(** A pool of four pages.  An object of 100 bytes aligned to 64 in slot 1 is allocated
    and freed: later accesses fault.  An object of 20 bytes in slot 2 starts 32 bytes
    before the end of its page, so that 12 magic bytes follow it.  The program writes the
    first of these, then frees the object; the free is stopped. *)
Definition ex_cf : gcfg := mkGcfg 8192 4 3 81920.

Example ex_cf_ok : gcfg_ok ex_cf.
Proof.
  split; [exists 13; split; [lia|reflexivity]|]. cbn. split; [lia|]. split; [unfold gpa_max_pages; lia|].
  split; [exists 10; reflexivity|lia].
Qed.

Definition ex_reserve (g : ga) (idx : Z) : ga :=
  match reserve_free_slot ex_cf g idx with Some (g, _) => g | None => g end.

Lemma ex_start g pool h idx n al : greach ex_cf (mkGst g pool) h -> request_ok ex_cf n al ->
  0 <= idx < 4 -> (gc_max ex_cf - ga_count g =? 0) = false -> get_free_slot g idx = Some idx ->
  greach ex_cf (mkGst (ex_reserve g idx) (AReserved idx n al :: pool)) h.
Proof.
  intros R RQ Hi C E. apply (gr_step _ _ _ EvStart _ _ R); [|apply fo_start].
  apply (gs_start ex_cf g pool n al idx); [exact RQ|exact Hi|].
  unfold ex_reserve, reserve_free_slot. rewrite C, E. reflexivity.
Qed.
Lemma ex_internal cf st h st' : greach cf st h -> gstep cf st EvInternal (Some st') -> greach cf st' h.
Proof. intros R S. exact (gr_step cf _ _ _ _ _ R S (fo_internal cf st h)). Qed.
Lemma ex_finish g h s n al p : greach ex_cf (mkGst g [AReady s n al]) h ->
  snd (finish_alloc ex_cf g s n al) = p ->
  let g' := fst (finish_alloc ex_cf g s n al) in
  greach ex_cf (mkGst g' []) (returns ex_cf (mkGst g' []) h s p n al).
Proof.
  intros R E g'. apply (gr_return _ _ _ _ _ _ _ _ R). apply (gs_finish ex_cf g [] [] s n al).
  unfold g'. rewrite <- E. apply surjective_pairing.
Qed.

Definition ex_g1 : ga := ex_reserve ga_init 1.
Definition ex_g2 : ga := set_prot ex_g1 (slot_to_addr ex_cf 1) true.
Definition ex_g3 : ga := fst (finish_alloc ex_cf ex_g2 1 100 64).
Definition ex_g4 : ga := set_deallocs ex_g3 1 1.
Definition ex_g5 : ga := set_prot ex_g4 (page_addr ex_cf 106496) false.
Definition ex_g6 : ga := free_slot ex_g5 1.
Definition ex_g7 : ga := ex_reserve ex_g6 2.
Definition ex_g8 : ga := set_prot ex_g7 (slot_to_addr ex_cf 2) true.
Definition ex_g9 : ga := fst (finish_alloc ex_cf ex_g8 2 20 0).
Definition ex_g10 : ga := set_mem ex_g9 (upd (ga_mem ex_g9) 131060 7).
Definition ex_g11 : ga := set_deallocs ex_g10 2 1.
Definition ex_g12 : ga := set_ovf ex_g11 2.

Example guarded_example : exists st h o,
  greach ex_cf st h /\ In (o, o_ptr o) (h_dying h) /\ o_slot o = 2 /\ o_size o = 20 /\
  o_ptr o = page ex_cf 2 + 8192 - 32 /\ In 2 (h_bad h) /\
  gstep ex_cf st (EvCrash GBufferOverflowOnDealloc (o_ptr o)) None /\
  In (page ex_cf 1) (h_returned h) /\
  gstep ex_cf st (EvFault GUseAfterFree (page ex_cf 1 + 5)) None.
Proof.
  assert (RQ1 : request_ok ex_cf 100 64).
  { split; [cbn; lia|]. right. exists 6. repeat split; cbn; lia. }
  assert (RQ2 : request_ok ex_cf 20 0) by (split; [cbn; lia|left; reflexivity]).
  pose proof (gr_init ex_cf) as R.
  apply (ex_start _ _ _ 1 100 64) in R; [|exact RQ1|lia|reflexivity|vm_compute; reflexivity].
  fold ex_g1 in R.
  pose proof (ex_internal _ _ _ _ R (gs_mprotect ex_cf ex_g1 [] [] 1 100 64 ex_g2 eq_refl)) as R2. clear R.
  cbn [app] in R2. apply (ex_finish _ _ _ _ _ 106496) in R2; [|vm_compute; reflexivity].
  fold ex_g3 in R2.
  assert (S : gstep ex_cf (mkGst ex_g3 []) (EvFreeing 106496) (Some (mkGst ex_g4 [DCounted 1 106496]))).
  { apply (gs_free ex_cf ex_g3 [] 106496 1); vm_compute; reflexivity. }
  pose proof (fun N => gr_step _ _ _ _ _ _ R2 S (fo_freeing _ _ _ 106496 N)) as R3. clear R2 S.
  specialize (R3 (or_introl eq_refl)).
  unfold returns in R3. cbn [h_live h_dying h_returned h_dirty h_bad hist0 filter map app o_ptr] in R3.
  change (same_page ex_cf 106496 106496) with true in R3. cbn [negb map app] in R3.
  assert (S : gstep ex_cf (mkGst ex_g4 [DCounted 1 106496]) (EvCheck 1)
                (Some (mkGst ex_g4 [DChecked 1 106496]))).
  { apply (gs_check ex_cf ex_g4 [] [] 1 106496 ex_g4).
    replace (0 <? ga_size ex_g4 1) with true by (vm_compute; reflexivity).
    replace (write_overflow_occurred ex_cf ex_g4 1) with false by (vm_compute; reflexivity). reflexivity. }
  pose proof (fun N => gr_step _ _ _ _ _ _ R3 S (fo_check_good _ _ _ 1 N)) as R4. clear R3 S.
  cbn [h_live h_dying h_returned h_dirty h_bad] in R4.
  assert (N : forall o ptr, In (o, ptr) [(mkObj 1 106496 100 64 (ga_mem ex_g3), 106496)] -> o_slot o = 1 ->
    ~ changed (mkGst ex_g4 [DCounted 1 106496]) ex_cf o).
  { intros o ptr _ E (X & _). rewrite E in X. discriminate X. }
  specialize (R4 N). clear N.
  pose proof (ex_internal _ _ _ _ R4 (gs_protect ex_cf ex_g4 [] [] 1 106496 ex_g5 eq_refl eq_refl)) as R5.
  clear R4. cbn [app] in R5.
  assert (S : gstep ex_cf (mkGst ex_g5 [DProtected 1 106496]) (EvFreed 1) (Some (mkGst ex_g6 []))).
  { apply (gs_freed ex_cf ex_g5 [] [] 1 106496). vm_compute. reflexivity. }
  pose proof (gr_step _ _ _ _ _ _ R5 S (fo_freed _ _ _ 1)) as R6. clear R5 S.
  cbn [h_live h_dying h_returned h_dirty h_bad filter fst o_slot] in R6.
  change (1 =? 1) with true in R6. cbn [negb] in R6.
  apply (ex_start _ _ _ 2 20 0) in R6; [|exact RQ2|lia|vm_compute; reflexivity|vm_compute; reflexivity].
  fold ex_g7 in R6.
  pose proof (ex_internal _ _ _ _ R6 (gs_mprotect ex_cf ex_g7 [] [] 2 20 0 ex_g8 eq_refl)) as R7. clear R6.
  cbn [app] in R7. apply (ex_finish _ _ _ _ _ 131040) in R7; [|vm_compute; reflexivity].
  fold ex_g9 in R7. unfold returns in R7. cbn [h_live h_dying h_returned h_dirty h_bad filter gs_ga] in R7.
  assert (S : gstep ex_cf (mkGst ex_g9 []) (EvWrite 131060) (Some (mkGst ex_g10 []))).
  { apply (gs_write ex_cf ex_g9 [] 131060 7). vm_compute. reflexivity. }
  pose proof (gr_step _ _ _ _ _ _ R7 S (fo_write _ _ _ 131060)) as R8. clear R7 S.
  cbn [h_live h_dying h_returned h_dirty h_bad] in R8.
  assert (S : gstep ex_cf (mkGst ex_g10 []) (EvFreeing 131040) (Some (mkGst ex_g11 [DCounted 2 131040]))).
  { apply (gs_free ex_cf ex_g10 [] 131040 2); vm_compute; reflexivity. }
  pose proof (fun N => gr_step _ _ _ _ _ _ R8 S (fo_freeing _ _ _ 131040 N)) as R9. clear R8 S.
  specialize (R9 (or_introl eq_refl)).
  cbn [h_live h_dying h_returned h_dirty h_bad filter map app o_ptr] in R9.
  change (same_page ex_cf 131040 131040) with true in R9. cbn [negb map app] in R9.
  set (o := mkObj 2 131040 20 0 (ga_mem ex_g9)) in R9.
  assert (S : gstep ex_cf (mkGst ex_g11 [DCounted 2 131040]) (EvCheck 2)
                (Some (mkGst ex_g12 [DChecked 2 131040]))).
  { apply (gs_check ex_cf ex_g11 [] [] 2 131040 ex_g12).
    replace (0 <? ga_size ex_g11 2) with true by (vm_compute; reflexivity).
    replace (write_overflow_occurred ex_cf ex_g11 2) with true by (vm_compute; reflexivity). reflexivity. }
  assert (CH : changed (mkGst ex_g11 [DCounted 2 131040]) ex_cf o).
  { split; [reflexivity|]. split; [cbn; lia|]. exists 0. split; [lia|].
    split; [unfold in_page, page; cbn; lia|]. vm_compute. discriminate. }
  pose proof (fun N => gr_step _ _ _ _ _ _ R9 S (fo_check_bad _ _ _ 2 o 131040 N eq_refl CH)) as R10.
  specialize (R10 (or_introl eq_refl)).
  clear R9 S CH. cbn [h_live h_dying h_returned h_dirty h_bad] in R10.
  eexists. eexists. exists o. split; [exact R10|]. cbn [h_live h_dying h_returned h_dirty h_bad].
  split; [left; reflexivity|]. split; [reflexivity|]. split; [reflexivity|]. split; [reflexivity|].
  split; [left; reflexivity|].
  split. { apply (gs_overflow ex_cf ex_g12 [] [] 2 131040). vm_compute. reflexivity. }
  split; [right; left; reflexivity|].
  change GUseAfterFree with (error_type ex_cf ex_g12 (page ex_cf 1 + 5)).
  apply gs_fault; [unfold page, gc_end; cbn; lia|vm_compute; reflexivity].
Qed.

Print Assumptions guarded_objects.
Print Assumptions guarded_access.
Print Assumptions guarded_guards.
Print Assumptions guarded_free.
Print Assumptions guarded_free_outcome.
Print Assumptions guarded_free_progress.
Print Assumptions guarded_changed_written.
Print Assumptions guarded_capacity.
Print Assumptions guarded_nearest.
Print Assumptions guarded_report.
Print Assumptions guarded_freed.
Print Assumptions guarded_example.
