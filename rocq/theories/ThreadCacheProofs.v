(** Lemmas about ThreadCache.v. *)
From Coq Require Import Permutation.
From Verif Require Import Base ThreadCache.

Definition ev_freed (k : Z) (e : tev) : list Z := match e with EvFree k' o => if k' =? k then [o] else [] | _ => [] end.
Definition ev_alloced (k : Z) (e : tev) : list Z := match e with EvAlloc k' o => if k' =? k then [o] else [] | _ => [] end.
Definition ev_fetched (k : Z) (e : tev) : list Z := match e with EvRemove k' _ got => if k' =? k then got else [] | _ => [] end.
Definition ev_returned (k : Z) (e : tev) : list Z := match e with EvInsert k' b => if k' =? k then b else [] | _ => [] end.
Definition freed k evs := flat_map (ev_freed k) evs.
Definition alloced k evs := flat_map (ev_alloced k) evs.
Definition fetched k evs := flat_map (ev_fetched k) evs.
Definition returned k evs := flat_map (ev_returned k) evs.

(** The calls to the transfer cache are within the bounds of the batch. *)
Definition ev_ok (p : tpar) (e : tev) : Prop :=
  match e with
  | EvFree k _ | EvAlloc k _ => q_used p k
  | EvRemove k n got => q_used p k /\ 1 <= n <= q_batch p k /\ len got <= n
  | EvInsert k b => q_used p k /\ 1 <= len b <= q_batch p k
  end.

Definition objs (c : tcache) (k : Z) : list Z := fl_objs (c_list c k).
(** The bytes in the lists of a cache. *)
Definition bytes (p : tpar) (c : tcache) : Z := zsum (map (fun k => q_size p k * fl_len (c_list c k)) (zseq 0 (Z.to_nat (q_classes p)))).

Ltac pcnt :=
  repeat match goal with H : Permutation _ _ |- _ => rewrite (Permutation_count_occ Z.eq_dec) in H end;
  apply (Permutation_count_occ Z.eq_dec); let x := fresh "x" in intros x;
  repeat match goal with H : forall _ : Z, count_occ _ _ _ = count_occ _ _ _ |- _ => specialize (H x) end;
  repeat (progress (cbn [app count_occ] in *; rewrite ?count_occ_app in *));
  repeat match goal with |- context [if ?d then _ else _] => destruct d | H : context [if ?d then _ else _] |- _ => destruct d end; lia.

Lemma len_nonneg l : 0 <= len l. Proof. unfold len. lia. Qed.
Lemma len_app l1 l2 : len (l1 ++ l2) = len l1 + len l2. Proof. unfold len. rewrite app_length. lia. Qed.
Lemma len_cons a l : len (a :: l) = 1 + len l. Proof. unfold len. cbn [length]. lia. Qed.
Lemma len_nil : len [] = 0. Proof. reflexivity. Qed.
Lemma len_firstn n l : 0 <= n <= len l -> len (firstn (Z.to_nat n) l) = n.
Proof. unfold len. intros. rewrite firstn_length. lia. Qed.
Lemma len_skipn n l : 0 <= n <= len l -> len (skipn (Z.to_nat n) l) = len l - n.
Proof. unfold len. intros. rewrite skipn_length. lia. Qed.
Lemma len0 l : len l = 0 -> l = []. Proof. destruct l; [reflexivity|]. rewrite len_cons. pose proof (len_nonneg l). lia. Qed.

(** One list: [b] is the batch size of its class, [slack] is 1 between the push of a free and the length check. *)
Definition list_ok (b slack : Z) (l : flist) : Prop :=
  1 <= fl_max l <= kMaxDynamicFreeListLength /\ 0 <= fl_over l <= kMaxOverages /\ 0 <= fl_low l <= fl_len l /\
  fl_len l <= kMaxDynamicFreeListLength + slack /\ (0 < b -> fl_max l <= b \/ fl_max l mod b = 0) /\ (b = 0 -> fl_objs l = []).
Definition q_b (p : tpar) (k : Z) : Z := if 0 <? q_size p k then q_batch p k else 0.
Definition cache_ok (p : tpar) (at_ : option Z) (c : tcache) : Prop :=
  forall k, 0 <= k < q_classes p -> list_ok (q_b p k) (match at_ with Some k' => if k' =? k then 1 else 0 | None => 0 end) (c_list c k).

Lemma used_b p k : q_used p k -> q_b p k = q_batch p k.
Proof. intros (A & B & C). unfold q_b. destruct (0 <? q_size p k) eqn:E; [reflexivity|apply Z.ltb_ge in E; lia]. Qed.

Lemma zsum_map_split (f : Z -> Z) L i : NoDup L -> In i L ->
  exists r, zsum (map f L) = f i + r /\ forall f', (forall j, j <> i -> f' j = f j) -> zsum (map f' L) = f' i + r.
Proof.
  intros Nd Hi. apply in_split in Hi. destruct Hi as (L1 & L2 & ->). apply NoDup_remove_2 in Nd. rewrite in_app_iff in Nd.
  exists (zsum (map f L1) + zsum (map f L2)). split; [rewrite map_app, zsum_app; cbn [map zsum]; lia|].
  intros f' H. rewrite map_app, zsum_app. cbn [map zsum].
  rewrite (map_ext_in f' f L1), (map_ext_in f' f L2); [lia| |]; intros j Hj; apply H; intros ->; tauto.
Qed.
Lemma flat_map_split (f : Z -> list Z) L i : NoDup L -> In i L ->
  exists R, Permutation (flat_map f L) (f i ++ R) /\ forall f', (forall j, j <> i -> f' j = f j) -> Permutation (flat_map f' L) (f' i ++ R).
Proof.
  intros Nd Hi. apply in_split in Hi. destruct Hi as (L1 & L2 & ->). apply NoDup_remove_2 in Nd. rewrite in_app_iff in Nd.
  assert (E : forall f' M, (forall j, j <> i -> f' j = f j) -> ~ In i M -> flat_map f' M = flat_map f M).
  { intros f' M H Hn. induction M as [|a M IH]; [reflexivity|]. cbn [flat_map]. rewrite IH by (intros X; apply Hn; right; exact X).
    rewrite H; [reflexivity|]. intros ->. apply Hn. left. reflexivity. }
  exists (flat_map f L1 ++ flat_map f L2).
  assert (G : forall f', (forall j, j <> i -> f' j = f j) -> Permutation (flat_map f' (L1 ++ i :: L2)) (f' i ++ flat_map f L1 ++ flat_map f L2)).
  { intros f' H. rewrite flat_map_app. cbn [flat_map]. rewrite (E f' L1), (E f' L2) by tauto. pcnt. }
  split; [apply G; reflexivity|exact G].
Qed.

(** Changing the list of one class. *)
Lemma bytes_upd p c k l s m : 0 <= k < q_classes p ->
  bytes p (TCa (upd (c_list c) k l) s m) = bytes p c + q_size p k * (fl_len l - fl_len (c_list c k)).
Proof.
  intros Hk. unfold bytes. cbn [c_list].
  destruct (zsum_map_split (fun j => q_size p j * fl_len (c_list c j)) (zseq 0 (Z.to_nat (q_classes p))) k) as (r & E & H).
  { apply zseq_NoDup. } { apply zseq_In. lia. }
  rewrite E. rewrite (H (fun j => q_size p j * fl_len (upd (c_list c) k l j))).
  - rewrite upd_same. lia.
  - intros j Hj. rewrite upd_other by exact Hj. reflexivity.
Qed.
Lemma bytes_upd2 p f k l1 l2 s m s' m' : bytes p (TCa (upd (upd f k l1) k l2) s m) = bytes p (TCa (upd f k l2) s' m').
Proof.
  unfold bytes. cbn [c_list]. f_equal. apply map_ext. intros j. f_equal. f_equal.
  destruct (Z.eq_dec j k) as [->|Hj]; [rewrite !upd_same|rewrite !upd_other by exact Hj]; reflexivity.
Qed.
Lemma bytes_same p c s m : bytes p (TCa (c_list c) s m) = bytes p c. Proof. reflexivity. Qed.

(** What an operation does to a cache. *)
Record lrel (p : tpar) (c : tcache) (evs : list tev) (c' : tcache) : Prop := {
  lr_objs : forall k, Permutation (objs c k ++ freed k evs ++ fetched k evs) (objs c' k ++ alloced k evs ++ returned k evs);
  lr_size : c_size c' - bytes p c' = c_size c - bytes p c;
  lr_max : c_max c' = c_max c;
  lr_evs : Forall (ev_ok p) evs }.

Lemma lrel_refl p c : lrel p c [] c.
Proof. constructor; [intros; reflexivity|reflexivity|reflexivity|constructor]. Qed.
Lemma lrel_trans p c1 e1 c2 e2 c3 : lrel p c1 e1 c2 -> lrel p c2 e2 c3 -> lrel p c1 (e1 ++ e2) c3.
Proof.
  intros [A B C D] [A' B' C' D']. constructor; [|lia|congruence|apply Forall_app; tauto].
  intros k. specialize (A k). specialize (A' k). unfold freed, fetched, alloced, returned in *. rewrite !flat_map_app. pcnt.
Qed.

(** ReleaseToTransferCache *)
Lemma release_loop_spec f : forall b N l, 1 <= b -> 0 <= N <= fl_len l -> N <= Z.of_nat f -> 0 <= fl_low l <= fl_len l ->
  exists l' bs N', release_loop f b N l = (l', bs, N') /\
    fl_objs l = concat bs ++ fl_objs l' /\ 0 <= N' <= b /\ N' <= fl_len l' /\ (1 <= N -> 1 <= N') /\ len (concat bs) = N - N' /\
    Forall (fun x => len x = b) bs /\ 0 <= fl_low l' <= fl_len l' /\ fl_max l' = fl_max l /\ fl_over l' = fl_over l.
Proof.
  induction f as [|f IH]; intros b N l Hb HN Hf Hl; cbn [release_loop].
  - exists l, [], N. cbn [concat app]. rewrite len_nil. repeat apply conj; auto; lia.
  - destruct (b <? N) eqn:E.
    + apply Z.ltb_lt in E. unfold fl_pop_batch.
      set (l1 := FL (skipn (Z.to_nat b) (fl_objs l)) _ _ _).
      assert (L1 : fl_len l1 = fl_len l - b) by (unfold fl_len, l1 in *; cbn [fl_objs]; rewrite len_skipn; lia).
      destruct (IH b (N - b) l1) as (l' & bs & N' & -> & A & B & B1 & C & D & F & G & H & I); [lia|lia|lia| |].
      { unfold l1, fl_len in *. cbn [fl_low fl_objs]. set (n := len (skipn (Z.to_nat b) (fl_objs l))) in *. assert (0 <= n) by apply len_nonneg.
        destruct (n <? fl_low l) eqn:E1; [apply Z.ltb_lt in E1|apply Z.ltb_ge in E1]; lia. }
      exists l', (firstn (Z.to_nat b) (fl_objs l) :: bs), N'. split; [reflexivity|]. cbn [concat].
      assert (Lf : len (firstn (Z.to_nat b) (fl_objs l)) = b) by (apply len_firstn; unfold fl_len in HN; lia).
      split. { rewrite <- app_assoc. transitivity (firstn (Z.to_nat b) (fl_objs l) ++ fl_objs l1); [unfold l1; cbn [fl_objs]; rewrite firstn_skipn; reflexivity|]. rewrite A. reflexivity. }
      split; [exact B|]. split; [exact B1|]. split; [intros; apply C; lia|]. split; [rewrite len_app, Lf, D; lia|].
      split; [constructor; assumption|]. split; [exact G|]. split; [rewrite H; reflexivity|rewrite I; reflexivity].
    + apply Z.ltb_ge in E. exists l, [], N. cbn [concat app]. rewrite len_nil. repeat apply conj; auto; lia.
Qed.

Lemma returned_map k k' bs : returned k (map (EvInsert k') bs) = if k' =? k then concat bs else [].
Proof.
  unfold returned. induction bs as [|b bs IH]; cbn [map flat_map concat]; [now destruct (k' =? k)|]. rewrite IH. cbn [ev_returned].
  destruct (k' =? k); reflexivity.
Qed.
Lemma others_map k k' bs : freed k (map (EvInsert k') bs) = [] /\ fetched k (map (EvInsert k') bs) = [] /\ alloced k (map (EvInsert k') bs) = [].
Proof. unfold freed, fetched, alloced. induction bs as [|b bs (A & B & C)]; cbn [map flat_map]; [auto|]. rewrite A, B, C. auto. Qed.

Lemma release_spec p c k N c' evs : q_used p k -> 1 <= N -> 1 <= fl_len (c_list c k) -> 0 <= fl_low (c_list c k) <= fl_len (c_list c k) ->
  release p c k N = (c', evs) ->
  lrel p c evs c' /\ (forall j, j <> k -> c_list c' j = c_list c j) /\
  fl_len (c_list c' k) = fl_len (c_list c k) - Z.min N (fl_len (c_list c k)) /\
  0 <= fl_low (c_list c' k) <= fl_len (c_list c' k) /\ fl_max (c_list c' k) = fl_max (c_list c k) /\ fl_over (c_list c' k) = fl_over (c_list c k).
Proof.
  intros U HN Hl Hlow. unfold release. set (l := c_list c k) in *. set (M := if fl_len l <? N then fl_len l else N).
  assert (HM : M = Z.min N (fl_len l)) by (unfold M; destruct (fl_len l <? N) eqn:E; [apply Z.ltb_lt in E|apply Z.ltb_ge in E]; lia).
  destruct U as (U1 & U2 & U3).
  destruct (release_loop_spec (Z.to_nat M) (q_batch p k) M l) as (l' & bs & N' & -> & A & B & B1 & C & D & F & G & H & I); [lia|lia|lia|lia|].
  unfold fl_pop_batch. intros E. injection E as <- <-.
  set (l2 := FL (skipn (Z.to_nat N') (fl_objs l')) _ _ _).
  assert (Lf : len (firstn (Z.to_nat N') (fl_objs l')) = N') by (apply len_firstn; unfold fl_len in B1; lia).
  assert (L2 : fl_len l2 = fl_len l' - N') by (unfold l2, fl_len in *; cbn [fl_objs]; rewrite len_skipn; lia).
  assert (Ll : fl_len l = (M - N') + fl_len l') by (unfold fl_len; rewrite A, len_app, D; reflexivity).
  assert (Eo : fl_objs l = concat (bs ++ [firstn (Z.to_nat N') (fl_objs l')]) ++ fl_objs l2).
  { rewrite concat_app. cbn [concat]. rewrite app_nil_r, <- app_assoc. unfold l2. cbn [fl_objs]. rewrite firstn_skipn. exact A. }
  cbn [c_list c_size c_max]. rewrite upd_same. split; [|split; [intros j Hj; apply upd_other; exact Hj|split; [lia|split; [|split; [exact H|exact I]]]]].
  - constructor; cbn [c_size c_max].
    + intros j. destruct (others_map j k (bs ++ [firstn (Z.to_nat N') (fl_objs l')])) as (-> & -> & ->). rewrite returned_map. unfold objs. cbn [c_list app].
      rewrite app_nil_r. destruct (Z.eq_dec j k) as [->|Hj].
      * rewrite upd_same, Z.eqb_refl. fold l. rewrite Eo. apply Permutation_app_comm.
      * rewrite upd_other by exact Hj. destruct (k =? j) eqn:E; [apply Z.eqb_eq in E; congruence|]. rewrite app_nil_r. reflexivity.
    + rewrite bytes_upd by lia. fold l. lia.
    + reflexivity.
    + rewrite map_app. apply Forall_app. split.
      * rewrite Forall_forall in F |- *. intros e He. apply in_map_iff in He. destruct He as (x & <- & Hx). specialize (F x Hx). cbn [ev_ok].
        split; [repeat split; lia|]. lia.
      * constructor; [|constructor]. cbn [ev_ok]. split; [repeat split; lia|]. rewrite Lf. specialize (C ltac:(lia)). lia.
  - unfold l2, fl_len in *. cbn [fl_low fl_objs] in *. set (n := len (skipn (Z.to_nat N') (fl_objs l'))) in *. assert (0 <= n) by apply len_nonneg.
    destruct (n <? fl_low l') eqn:E1; [apply Z.ltb_lt in E1|apply Z.ltb_ge in E1]; lia.
Qed.

(** Replacing the parameters of a list. *)
Lemma lrel_retune p c k l : 0 <= k < q_classes p -> fl_objs l = fl_objs (c_list c k) -> lrel p c [] (TCa (upd (c_list c) k l) (c_size c) (c_max c)).
Proof.
  intros Hk E. constructor; [|cbn [c_size]; rewrite bytes_upd by exact Hk; unfold fl_len; rewrite E; lia|reflexivity|constructor].
  intros j. unfold objs, freed, fetched, alloced, returned. cbn [c_list flat_map app]. rewrite !app_nil_r.
  destruct (Z.eq_dec j k) as [->|Hj]; [rewrite upd_same, E; reflexivity|rewrite upd_other by exact Hj; reflexivity].
Qed.

Lemma cache_ok_upd p a c k l s m : cache_ok p a c -> list_ok (q_b p k) 0 l -> (forall k', a = Some k' -> k' = k) ->
  cache_ok p None (TCa (upd (c_list c) k l) s m).
Proof.
  intros H Hl Ha j Hj. cbn [c_list]. destruct (Z.eq_dec j k) as [->|Hn]; [rewrite upd_same; exact Hl|]. rewrite upd_other by exact Hn.
  specialize (H j Hj). destruct a as [k'|]; [|exact H]. rewrite (Ha k' eq_refl) in H. destruct (k =? j) eqn:E; [apply Z.eqb_eq in E; congruence|exact H].
Qed.

(** alloc_hit *)
Lemma alloc_hit_spec p c k o c' : cache_ok p None c -> q_used p k -> alloc_hit p c k = Some (o, c') ->
  cache_ok p None c' /\ lrel p c [EvAlloc k o] c'.
Proof.
  intros Hc U. unfold alloc_hit, fl_try_pop. destruct (fl_objs (c_list c k)) as [|x r] eqn:E; [discriminate|]. intros X. injection X as -> <-.
  assert (Hk : 0 <= k < q_classes p) by apply U. pose proof (Hc k Hk) as (A & B & C & D & F & G). unfold fl_len in C, D. rewrite E, len_cons in C, D.
  assert (len r <= fl_low (c_list c k) \/ fl_low (c_list c k) < len r) as HH by lia. pose proof (len_nonneg r) as Hr.
  split.
  - apply cache_ok_upd with (a := None); [exact Hc| |discriminate].
    unfold list_ok, fl_len. cbn [fl_objs fl_low fl_max fl_over]. repeat apply conj; try lia; try (destruct (len r <? fl_low (c_list c k)) eqn:E1; [apply Z.ltb_lt in E1|apply Z.ltb_ge in E1]; lia).
    intros Hb. specialize (G Hb). congruence.
  - constructor; cbn [c_size c_max].
    + intros j. unfold objs, freed, fetched, alloced, returned. cbn [c_list flat_map ev_freed ev_fetched ev_alloced ev_returned app]. rewrite !app_nil_r.
      destruct (Z.eq_dec j k) as [->|Hn]; [rewrite upd_same, Z.eqb_refl, E; cbn [fl_objs]; pcnt|]. rewrite upd_other by exact Hn.
      destruct (k =? j) eqn:E1; [apply Z.eqb_eq in E1; congruence|]. rewrite app_nil_r. reflexivity.
    + rewrite bytes_upd by exact Hk. unfold fl_len. rewrite E, len_cons. cbn [fl_objs]. lia.
    + reflexivity.
    + constructor; [exact U|constructor].
Qed.

(** fetch *)
Lemma fetch_max_ok b m : 0 < b <= kMaxObjectsToMove -> 1 <= m <= kMaxDynamicFreeListLength -> m <= b \/ m mod b = 0 ->
  1 <= fetch_max b m <= kMaxDynamicFreeListLength /\ (fetch_max b m <= b \/ fetch_max b m mod b = 0).
Proof.
  unfold fetch_max, kMaxObjectsToMove, kMaxDynamicFreeListLength. intros Hb Hm Hx. destruct (m <? b) eqn:E; [apply Z.ltb_lt in E; lia|apply Z.ltb_ge in E].
  cbv zeta. set (n := Z.min (m + b) 8192). assert (Hn : b <= n <= 8192) by lia.
  pose proof (Z.div_mod n b ltac:(lia)) as Hd. pose proof (Z.mod_pos_bound n b ltac:(lia)) as Hp.
  assert (E1 : n - n mod b = n / b * b) by lia. rewrite E1. assert (1 <= n / b) by (apply Z.div_le_lower_bound; lia).
  split; [nia|]. right. apply Z.mod_mul. lia.
Qed.

Lemma fetch_spec p c k got r c' : tpar_ok p -> cache_ok p None c -> q_used p k -> objs c k = [] -> len got <= fetch_want p c k ->
  fetch p c k got = (r, c') ->
  let evs := EvRemove k (fetch_want p c k) got :: match r with Some o => [EvAlloc k o] | None => [] end in
  cache_ok p None c' /\ lrel p c evs c' /\ (r = None <-> got = []).
Proof.
  intros Hp Hc U He Hg. assert (Hk : 0 <= k < q_classes p) by apply U. pose proof (used_b p k U) as Eb.
  destruct Hp as (_ & Hp & _). destruct (Hp k Hk) as (_ & Hb). clear Hp. assert (U3 : 0 < q_batch p k) by apply U.
  pose proof (Hc k Hk) as (A & B & C & D & F & G). rewrite Eb in F, G. specialize (F U3). unfold objs in He.
  assert (W : 1 <= fetch_want p c k <= q_batch p k) by (unfold fetch_want; lia).
  unfold fetch. destruct got as [|o rest].
  - intros X. injection X as <- <-. cbn zeta. split; [exact Hc|]. split; [|split; auto]. constructor; [|reflexivity|reflexivity|constructor; [cbn [ev_ok]; auto|constructor]].
    intros j. unfold freed, fetched, alloced, returned. cbn [flat_map ev_freed ev_fetched ev_alloced ev_returned app]. destruct (k =? j); reflexivity.
  - rewrite len_cons in Hg. pose proof (len_nonneg rest) as Hr.
    intros X. cbn zeta.
    assert (X' : (r, c') = (Some o, TCa (upd (c_list c) k (FL rest (fl_low (c_list c k)) (fetch_max (q_batch p k) (fl_max (c_list c k))) (fl_over (c_list c k)))) (c_size c + q_size p k * len rest) (c_max c))).
    { rewrite <- X. destruct (0 <? len rest) eqn:E.
      - unfold fl_set_max, fl_push_batch. cbn [fl_objs fl_low fl_max fl_over]. rewrite He, app_nil_r. reflexivity.
      - apply Z.ltb_ge in E. assert (rest = []) as -> by (apply len0; lia). unfold fl_set_max. cbn [fl_objs fl_low fl_max fl_over]. rewrite He, len_nil.
        replace (c_size c + q_size p k * 0) with (c_size c) by lia. reflexivity. }
    injection X' as -> ->. clear X.
    destruct (fetch_max_ok (q_batch p k) (fl_max (c_list c k)) ltac:(lia) A F) as (M1 & M2).
    split; [|split; [|split; discriminate]].
    + apply cache_ok_upd with (a := None); [exact Hc| |discriminate].
      unfold list_ok, fl_len in *. cbn [fl_objs fl_low fl_max fl_over]. rewrite He, len_nil in C. rewrite Eb. unfold kMaxDynamicFreeListLength, kMaxObjectsToMove in *.
      repeat apply conj; try lia.
    + constructor; cbn [c_size c_max].
      * intros j. unfold objs, freed, fetched, alloced, returned. cbn [c_list flat_map ev_freed ev_fetched ev_alloced ev_returned app]. rewrite ?app_nil_r.
        destruct (Z.eq_dec j k) as [->|Hn]; [rewrite upd_same, Z.eqb_refl, He; cbn [fl_objs]; pcnt|]. rewrite upd_other by exact Hn.
        destruct (k =? j) eqn:E1; [apply Z.eqb_eq in E1; congruence|]. reflexivity.
      * rewrite bytes_upd by exact Hk. unfold fl_len. rewrite He. cbn [fl_objs]. rewrite len_nil. lia.
      * reflexivity.
      * constructor; [cbn [ev_ok]; rewrite len_cons; repeat split; try apply U; lia|]. constructor; [exact U|constructor].
Qed.

(** dealloc *)
Lemma dealloc_spec p c k o c' slow : cache_ok p None c -> q_used p k -> dealloc p c k o = (c', slow) ->
  cache_ok p (if slow then Some k else None) c' /\ lrel p c [EvFree k o] c' /\
  (slow = true <-> fl_max (c_list c' k) < fl_len (c_list c' k) \/ c_max c' <= c_size c').
Proof.
  intros Hc U. unfold dealloc. set (l := fl_push (c_list c k) o). intros X.
  pose proof (f_equal snd X) as Es. pose proof (f_equal fst X) as Ec. cbn [fst snd] in Es, Ec. subst c'. clear X.
  assert (Hk : 0 <= k < q_classes p) by apply U. pose proof (Hc k Hk) as (A & B & C & D & F & G).
  assert (Ll : fl_len l = 1 + fl_len (c_list c k)) by (unfold l, fl_len, fl_push; cbn [fl_objs]; apply len_cons).
  assert (S : slow = true <-> fl_max l < fl_len l \/ c_max c <= c_size c + q_size p k).
  { rewrite <- Es. rewrite Bool.orb_true_iff, !Z.ltb_lt. lia. }
  split; [|split; [|cbn [c_list c_max c_size]; rewrite upd_same; exact S]].
  - intros j Hj. cbn [c_list]. destruct (Z.eq_dec j k) as [->|Hn].
    + rewrite upd_same. assert (Hb : q_b p k <> 0) by (rewrite (used_b p k U); destruct U as (_ & _ & U); lia).
      assert (Lm : fl_max l = fl_max (c_list c k)) by reflexivity. assert (Lo : fl_low l = fl_low (c_list c k)) by reflexivity.
      assert (Lv : fl_over l = fl_over (c_list c k)) by reflexivity.
      unfold list_ok. rewrite Ll, Lm, Lo, Lv in *. repeat apply conj; try lia.
      destruct slow; [rewrite Z.eqb_refl; lia|]. destruct S as (_ & S). assert (~ (fl_max (c_list c k) < 1 + fl_len (c_list c k))) by (intros Y; discriminate (S (or_introl Y))). lia.
    + rewrite upd_other by exact Hn. specialize (Hc j Hj). destruct slow; [|exact Hc]. destruct (k =? j) eqn:E; [apply Z.eqb_eq in E; congruence|exact Hc].
  - constructor; cbn [c_size c_max].
    + intros j. unfold objs, freed, fetched, alloced, returned. cbn [c_list flat_map ev_freed ev_fetched ev_alloced ev_returned app]. rewrite ?app_nil_r.
      destruct (Z.eq_dec j k) as [->|Hn]; [rewrite upd_same, Z.eqb_refl; unfold l, fl_push; cbn [fl_objs]; pcnt|]. rewrite upd_other by exact Hn.
      destruct (k =? j) eqn:E1; [apply Z.eqb_eq in E1; congruence|]. rewrite app_nil_r. reflexivity.
    + rewrite bytes_upd by exact Hk. lia.
    + reflexivity.
    + constructor; [exact U|constructor].
Qed.

(** ListTooLong and the first half of DeallocateSlow *)
Lemma slow_list_spec p c k c' evs : tpar_ok p -> cache_ok p (Some k) c -> q_used p k -> slow_list p c k = (c', evs) ->
  cache_ok p None c' /\ lrel p c evs c'.
Proof.
  intros Hp Hc U. unfold slow_list. assert (Hk : 0 <= k < q_classes p) by apply U. destruct Hp as (_ & Hp & _). destruct (Hp k Hk) as (_ & Hb2). clear Hp. pose proof (Hc k Hk) as (A & B & C & D & F & G).
  rewrite Z.eqb_refl in D. rewrite (used_b p k U) in *. assert (Hb : 0 < q_batch p k) by apply U. specialize (F Hb).
  destruct (fl_max (c_list c k) <? fl_len (c_list c k)) eqn:E.
  - apply Z.ltb_lt in E. unfold list_too_long. destruct (release p c k (q_batch p k)) as (c1, e1) eqn:Er.
    destruct (release_spec p c k (q_batch p k) c1 e1 U ltac:(lia) ltac:(lia) C Er) as (R & Ro & Rl & Rw & Rm & Rv).
    intros X. injection X as <- <-.
    assert (T : list_ok (q_batch p k) 0 (too_long_max (q_batch p k) (c_list c1 k)) /\ fl_objs (too_long_max (q_batch p k) (c_list c1 k)) = fl_objs (c_list c1 k)).
    { unfold too_long_max. set (l := c_list c1 k) in *. unfold list_ok, fl_len in *. unfold kMaxOverages, kMaxDynamicFreeListLength, kMaxObjectsToMove in *.
      destruct (fl_max l <? q_batch p k) eqn:E1; [apply Z.ltb_lt in E1|apply Z.ltb_ge in E1].
      - cbn [fl_set_max fl_objs fl_low fl_max fl_over]. split; [|reflexivity]. repeat apply conj; lia.
      - destruct (q_batch p k <? fl_max l) eqn:E2; [apply Z.ltb_lt in E2|apply Z.ltb_ge in E2].
        + cbn [fl_set_over fl_over]. destruct (3 <? fl_over l + 1) eqn:E3; [apply Z.ltb_lt in E3|apply Z.ltb_ge in E3].
          * cbn [fl_set_over fl_set_max fl_objs fl_low fl_max fl_over]. split; [|reflexivity]. rewrite Rm in *.
            repeat apply conj; try lia. intros _. right. destruct F as [F|F]; [lia|]. rewrite Zminus_mod, F, Z_mod_same_full. reflexivity.
          * cbn [fl_set_over fl_objs fl_low fl_max fl_over]. split; [|reflexivity]. rewrite Rm in *. repeat apply conj; try lia.
        + split; [|reflexivity]. rewrite Rm in *. repeat apply conj; try lia. }
    destruct T as (T1 & T2). split.
    + intros j Hj. cbn [c_list]. destruct (Z.eq_dec j k) as [->|Hn]; [rewrite upd_same, (used_b p k U); exact T1|].
      rewrite upd_other by exact Hn. rewrite Ro by exact Hn. specialize (Hc j Hj). cbn iota in Hc. destruct (k =? j) eqn:E1; [apply Z.eqb_eq in E1; congruence|exact Hc].
    + rewrite <- (app_nil_r e1). eapply lrel_trans; [exact R|]. apply lrel_retune; assumption.
  - apply Z.ltb_ge in E. intros X. injection X as <- <-. split; [|apply lrel_refl].
    intros j Hj. specialize (Hc j Hj). cbn iota in Hc. destruct (Z.eq_dec j k) as [->|Hn].
    + rewrite (used_b p k U) in *. unfold list_ok. repeat apply conj; try lia; tauto.
    + destruct (k =? j) eqn:E1; [apply Z.eqb_eq in E1; congruence|exact Hc].
Qed.

(** The loops over all classes *)
Lemma unused_empty p k l : 0 <= k < q_classes p -> 0 <= q_batch p k -> 0 <= q_size p k -> list_ok (q_b p k) 0 l -> fl_objs l <> [] -> q_used p k.
Proof.
  intros Hk Hb Hs (_ & _ & _ & _ & _ & G) Hn. unfold q_b in G. split; [exact Hk|].
  destruct (0 <? q_size p k) eqn:E; [apply Z.ltb_lt in E|exfalso; apply Hn, G; reflexivity].
  split; [exact E|]. destruct (Z.eq_dec (q_batch p k) 0) as [E0|]; [exfalso; apply Hn, G; exact E0|lia].
Qed.

Lemma for_classes_spec p f (Q : tcache -> Prop) : (forall c k c' e, 0 <= k < q_classes p -> Q c -> f c k = (c', e) -> Q c' /\ lrel p c e c') ->
  forall ks c c' e, Forall (fun k => 0 <= k < q_classes p) ks -> Q c -> for_classes f c ks = (c', e) -> Q c' /\ lrel p c e c'.
Proof.
  intros H ks. induction ks as [|k ks IH]; intros c c' e Hks Hc; cbn [for_classes].
  - intros X. injection X as <- <-. split; [exact Hc|apply lrel_refl].
  - inversion Hks; subst. destruct (f c k) as (c1, e1) eqn:E1. destruct (for_classes f c1 ks) as (c2, e2) eqn:E2. intros X. injection X as <- <-.
    destruct (H c k c1 e1) as (Q1 & R1); [assumption|assumption|exact E1|]. destruct (IH c1 c2 e2) as (Q2 & R2); [assumption|assumption|exact E2|].
    split; [exact Q2|eapply lrel_trans; eassumption].
Qed.

Lemma scavenge_one_spec p c k c' e : tpar_ok p -> 0 <= k < q_classes p -> cache_ok p None c -> scavenge_one p c k = (c', e) ->
  cache_ok p None c' /\ lrel p c e c'.
Proof.
  intros (_ & Hp & _) Hk Hc. destruct (Hp k Hk) as (Hs & Hb). clear Hp. unfold scavenge_one. pose proof (Hc k Hk) as (A & B & C & D & F & G).
  destruct (0 <? fl_low (c_list c k)) eqn:E.
  - apply Z.ltb_lt in E. assert (U : q_used p k).
    { apply (unused_empty p k (c_list c k)); [exact Hk|lia|exact Hs|exact (Hc k Hk)|]. intros Y. unfold fl_len in C. rewrite Y, len_nil in C. lia. }
    rewrite (used_b p k U) in *. assert (U3 : 0 < q_batch p k) by apply U. specialize (F U3).
    set (drop := if 1 <? fl_low (c_list c k) then fl_low (c_list c k) / 2 else 1).
    assert (Hd : 1 <= drop). { unfold drop. destruct (1 <? fl_low (c_list c k)) eqn:E1; [apply Z.ltb_lt in E1|lia]. apply Z.div_le_lower_bound; lia. }
    destruct (release p c k drop) as (c1, e1) eqn:Er.
    destruct (release_spec p c k drop c1 e1 U Hd ltac:(lia) C Er) as (R & Ro & Rl & Rw & Rm & Rv).
    set (l := if q_batch p k <? fl_max (c_list c1 k) then fl_set_max (c_list c1 k) (Z.max (fl_max (c_list c1 k) - q_batch p k) (q_batch p k)) else c_list c1 k).
    intros X. injection X as <- <-. cbn [c_list c_size c_max]. rewrite upd_same.
    assert (Lo : fl_objs l = fl_objs (c_list c1 k)) by (unfold l; destruct (q_batch p k <? fl_max (c_list c1 k)); reflexivity).
    assert (Lv : fl_over l = fl_over (c_list c k)) by (unfold l; destruct (q_batch p k <? fl_max (c_list c1 k)); cbn [fl_set_max fl_over]; exact Rv).
    assert (Lm : 1 <= fl_max l <= kMaxDynamicFreeListLength /\ (fl_max l <= q_batch p k \/ fl_max l mod q_batch p k = 0)).
    { unfold l. destruct (q_batch p k <? fl_max (c_list c1 k)) eqn:E1; [apply Z.ltb_lt in E1|apply Z.ltb_ge in E1; lia]. cbn [fl_set_max fl_max]. rewrite Rm in *.
      split; [unfold kMaxObjectsToMove, kMaxDynamicFreeListLength in *; lia|]. destruct F as [F|F]; [lia|].
      destruct (Z.max_spec (fl_max (c_list c k) - q_batch p k) (q_batch p k)) as [(M1 & ->)|(M1 & ->)]; [left; lia|]. right. rewrite Zminus_mod, F, Z_mod_same_full. reflexivity. }
    split.
    + intros j Hj. cbn [c_list]. destruct (Z.eq_dec j k) as [->|Hn].
      * rewrite upd_same, (used_b p k U). unfold list_ok, fl_clear_low, fl_len in *. cbn [fl_objs fl_low fl_max fl_over]. rewrite Lo, Lv.
        pose proof (len_nonneg (fl_objs (c_list c1 k))). repeat apply conj; try lia.
      * rewrite !upd_other by exact Hn. rewrite Ro by exact Hn. exact (Hc j Hj).
    + rewrite <- (app_nil_r e1). eapply lrel_trans; [exact R|]. 
      pose proof (lrel_retune p c1 k (fl_clear_low l) Hk Lo) as Z1.
      destruct Z1 as [Z1 Z2 Z3 Z4]. constructor; [|rewrite <- Z2; cbn [c_size]; rewrite (bytes_upd2 p (c_list c1) k l (fl_clear_low l) _ _ (c_size c1) (c_max c1)); lia|reflexivity|constructor].
      intros j. rewrite (Z1 j). unfold objs. cbn [c_list]. destruct (Z.eq_dec j k) as [->|Hn]; [rewrite !upd_same; reflexivity|rewrite !upd_other by exact Hn; reflexivity].
  - intros X. injection X as <- <-. split; [|apply lrel_retune; [exact Hk|reflexivity]].
    apply cache_ok_upd with (a := None); [exact Hc| |discriminate]. pose proof (len_nonneg (fl_objs (c_list c k))). unfold list_ok, fl_clear_low, fl_len in *. cbn [fl_objs fl_low fl_max fl_over]. repeat apply conj; try lia; assumption.
Qed.

Lemma classes_range p : Forall (fun k => 0 <= k < q_classes p) (zseq 0 (Z.to_nat (q_classes p))).
Proof. apply Forall_forall. intros k Hk. apply zseq_In in Hk. lia. Qed.

Lemma scavenge_spec p c c' e : tpar_ok p -> cache_ok p None c -> scavenge p c = (c', e) -> cache_ok p None c' /\ lrel p c e c'.
Proof.
  intros Hp Hc H. apply (for_classes_spec p (scavenge_one p) (cache_ok p None)) in H; [exact H| |apply classes_range|exact Hc].
  intros c1 k c2 e2 Hk H1 H2. eapply scavenge_one_spec; eassumption.
Qed.

Lemma cleanup_one_spec p c k c' e : tpar_ok p -> 0 <= k < q_classes p -> cache_ok p None c -> cleanup_one p c k = (c', e) ->
  cache_ok p None c' /\ lrel p c e c' /\ objs c' k = [] /\ (forall j, j <> k -> objs c' j = objs c j).
Proof.
  intros (_ & Hp & _) Hk Hc. destruct (Hp k Hk) as (Hs & Hb). clear Hp. unfold cleanup_one. pose proof (Hc k Hk) as (A & B & C & D & F & G).
  destruct (fl_objs (c_list c k)) as [|x r] eqn:E.
  - intros X. injection X as <- <-. split; [exact Hc|]. split; [apply lrel_refl|]. split; [exact E|reflexivity].
  - assert (U : q_used p k). { apply (unused_empty p k (c_list c k)); [exact Hk|lia|exact Hs|exact (Hc k Hk)|]. rewrite E. discriminate. }
    assert (L1 : 1 <= fl_len (c_list c k)) by (unfold fl_len; rewrite E, len_cons; pose proof (len_nonneg r); lia).
    intros Er. destruct (release_spec p c k _ c' e U L1 L1 C Er) as (R & Ro & Rl & Rw & Rm & Rv).
    assert (E0 : objs c' k = []). { apply len0. unfold fl_len, objs in *. lia. }
    split; [|split; [exact R|split; [exact E0|intros j Hj; unfold objs; rewrite Ro by exact Hj; reflexivity]]].
    intros j Hj. destruct (Z.eq_dec j k) as [->|Hn].
    + unfold list_ok. unfold objs in E0. rewrite Rm, Rv. unfold fl_len in *. rewrite E0, len_nil in *. unfold kMaxDynamicFreeListLength in *. repeat apply conj; try lia; try exact F; reflexivity.
    + rewrite Ro by exact Hn. exact (Hc j Hj).
Qed.

Lemma cleanup_spec p c c' e : tpar_ok p -> cache_ok p None c -> cleanup p c = (c', e) ->
  cache_ok p None c' /\ lrel p c e c' /\ forall k, 0 <= k < q_classes p -> objs c' k = [].
Proof.
  intros Hp Hc H. unfold cleanup in H.
  assert (G : forall ks c c' e, Forall (fun k => 0 <= k < q_classes p) ks -> cache_ok p None c -> for_classes (cleanup_one p) c ks = (c', e) ->
    cache_ok p None c' /\ lrel p c e c' /\ (forall k, In k ks -> objs c' k = []) /\ (forall j, ~ In j ks -> objs c' j = objs c j)).
  { clear - Hp. induction ks as [|k ks IH]; intros c c' e Hks Hc; cbn [for_classes].
    - intros X. injection X as <- <-. split; [exact Hc|]. split; [apply lrel_refl|]. split; [intros k []|reflexivity].
    - inversion Hks; subst. destruct (cleanup_one p c k) as (c1, e1) eqn:E1. destruct (for_classes (cleanup_one p) c1 ks) as (c2, e2) eqn:E2. intros X. injection X as <- <-.
      destruct (cleanup_one_spec p c k c1 e1) as (Q1 & R1 & Z1 & O1); [assumption|assumption|assumption|exact E1|].
      destruct (IH c1 c2 e2) as (Q2 & R2 & Z2 & O2); [assumption|assumption|exact E2|].
      split; [exact Q2|]. split; [eapply lrel_trans; eassumption|]. split.
      + intros j [<-|Hj]; [|exact (Z2 j Hj)]. destruct (in_dec Z.eq_dec k ks) as [Hi|Hi]; [exact (Z2 k Hi)|]. rewrite (O2 k Hi). exact Z1.
      + intros j Hj. rewrite O2 by (intros X; apply Hj; right; exact X). apply O1. intros ->. apply Hj. left. reflexivity. }
  destruct (G _ _ _ _ (classes_range p) Hc H) as (A & B & C & _). split; [exact A|]. split; [exact B|]. intros k Hk. apply C. apply zseq_In. lia.
Qed.
