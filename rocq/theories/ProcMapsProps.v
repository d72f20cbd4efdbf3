(** C61: the iterator over the memory map of the process. *)
From Verif Require Import Base CpuList SafeIo ProcMaps ProcMapsSpec ProcMapsProofs ProcMapsProofs2.

(** Whatever the sizes of the reads and the signals that interrupt them, calls return the
    mappings of the file, each once and in order, and then false for ever. *)
Theorem proc_maps_exact : forall es lines reads polls n,
  Forall2 map_line es lines -> Forall entry_ok es -> Forall (fun l => (length l < 5119)%nat) lines -> reads_ok reads ->
  pm_calls n (pm_init (mk_source (file_text lines []) reads polls)) = Some (results n es).
Proof.
  intros es lines reads polls n F2 Fo Fl Ro.
  rewrite (pm_calls_spec n (pm_init (mk_source (file_text lines []) reads polls)) lines []).
  - rewrite flat_map_app. cbn [flat_map]. change (line_entries []) with (@nil map_entry). rewrite !app_nil_r.
    rewrite (entries_lines es lines); auto.
  - unfold pm_ok. cbn. lia.
  - exact Ro.
  - reflexivity.
  - rewrite pm_cap_val. constructor. split; [intros []|]. cbn [length]. apply Nat.ltb_lt. vm_compute. reflexivity.
    apply Forall_forall. intros l Hl. rewrite Forall_forall in Fl. split; auto.
    assert (G : exists e, map_line e l).
    { clear - F2 Hl. induction F2 as [|e l0 es ls M _ IH]; [destruct Hl|]. destruct Hl as [->|Hl]; eauto. }
    destruct G as (e & M). eapply map_line_chars; eauto.
Qed.
Print Assumptions proc_maps_exact.

(** Other lines are skipped: the results are those of the lines one by one, and the last line
    needs no newline. *)
Theorem proc_maps_lines : forall lines last reads polls n,
  Forall short_line (last :: lines) -> reads_ok reads ->
  pm_calls n (pm_init (mk_source (file_text lines last) reads polls)) =
  Some (results n (flat_map (fun l => match scan_line l with Some e => [e] | None => [] end) (lines ++ [last]))).
Proof.
  intros lines last reads polls n F Ro.
  rewrite (pm_calls_spec n (pm_init (mk_source (file_text lines last) reads polls)) lines last); auto.
  unfold pm_ok. cbn. lia.
Qed.
Print Assumptions proc_maps_lines.

(** Whatever the file and even if reads fail, a call ends. *)
Theorem proc_maps_ends : forall w n, exists l, pm_calls n (pm_init w) = Some l.
Proof.
  intros w n. assert (G : forall s, pm_ok s -> exists l, pm_calls n s = Some l).
  { induction n as [|n IH]; intros s Ok; [eexists; reflexivity|]. cbn [pm_calls].
    destruct (pm_next_total s Ok) as (s' & e & -> & Ok'). cbn [obind].
    destruct (IH s' Ok') as (l & ->). eexists. reflexivity. }
  apply G. unfold pm_ok. cbn. lia.
Qed.
Print Assumptions proc_maps_ends.

(** "7f00-7f80 r-xp 0010 08:01 1234   /bin/x" and "0-1000 rw-s 0 00:00 0". *)
Definition ex_lines : list (list Z) :=
  [[55;102;48;48;45;55;102;56;48;32;114;45;120;112;32;48;48;49;48;32;48;56;58;48;49;32;49;50;51;52;32;32;32;47;98;105;110;47;120];
   [48;45;49;48;48;48;32;114;119;45;115;32;48;32;48;48;58;48;48;32;48]].
Definition ex_entries : list map_entry :=
  [mk_entry 32512 32640 [114;45;120;112] 16 8 1 1234 [47;98;105;110;47;120]; mk_entry 0 4096 [114;119;45;115] 0 0 0 0 []].
Example ex_maps_lines : Forall2 map_line ex_entries ex_lines /\ Forall entry_ok ex_entries /\ Forall (fun l => (length l < 5119)%nat) ex_lines.
Proof.
  assert (W : forall b v ds, ds <> [] -> Forall (fun d => 0 <= d < b) ds -> v = fold_left (fun a d => a * b + d) ds 0 -> written b v (map digit_char ds)).
  { intros b v ds A B C. exists ds. auto. }
  assert (D : forall b ds, forallb (fun d => (0 <=? d) && (d <? b)) ds = true -> Forall (fun d => 0 <= d < b) ds).
  { intros b ds H. apply Forall_forall. intros d I. rewrite forallb_forall in H. specialize (H d I). apply andb_true_iff in H as (A & B).
    apply Z.leb_le in A. apply Z.ltb_lt in B. lia. }
  split; [|split].
  - constructor; [|constructor; [|constructor]].
    + exists (map digit_char [7;15;0;0]), (map digit_char [7;15;8;0]), (map digit_char [0;0;1;0]), (map digit_char [0;8]), (map digit_char [0;1]), (map digit_char [1;2;3;4]), [32;32;32].
      split; [reflexivity|]. repeat (split; [apply W; [discriminate|apply D; reflexivity|reflexivity]|]).
      split; [reflexivity|]. split. repeat constructor; cbn; tauto. split. repeat constructor. cbn. split. split. discriminate. lia. lia.
    + exists (map digit_char [0]), (map digit_char [1;0;0;0]), (map digit_char [0]), (map digit_char [0;0]), (map digit_char [0;0]), (map digit_char [0]), [].
      split; [reflexivity|]. repeat (split; [apply W; [discriminate|apply D; reflexivity|reflexivity]|]).
      split; [reflexivity|]. split. repeat constructor; cbn; tauto. split. constructor. cbn. tauto.
  - repeat constructor; cbn; lia.
  - repeat constructor; apply Nat.ltb_lt; vm_compute; reflexivity.
Qed.
Example ex_calls : pm_calls 4 (pm_init (mk_source (file_text ex_lines []) [RGive 3; RIntr; RGive 40; RIntr; RGive 1] [])) =
  Some [Some (mk_entry 32512 32640 [114;45;120;112] 16 8 1 1234 [47;98;105;110;47;120]); Some (mk_entry 0 4096 [114;119;45;115] 0 0 0 0 []); None; None].
Proof. vm_compute. reflexivity. Qed.

(** Finding: a line longer than the buffer is cut, and its rest is taken for a line of its
    own: here a name of 5120 characters ends with the text of another mapping. *)
Theorem proc_maps_long_line_refuted : exists line e e',
  map_line e line /\ entry_ok e /\
  pm_calls 2 (pm_init (mk_source (file_text [line] []) [] [])) = Some [Some e'; Some (mk_entry 0 4096 [114;119;45;115] 0 0 0 0 [])] /\ e' <> e.
Proof.
  set (x := nth 1 ex_lines []).
  set (name := repeat 97 (5119 - 22) ++ x).
  exists ([48;45;49;32;114;45;120;112;32;48;32;48;58;48;32;48] ++ repeat 32 6 ++ name).
  exists (mk_entry 0 1 [114;45;120;112] 0 0 0 0 name), (mk_entry 0 1 [114;45;120;112] 0 0 0 0 (repeat 97 (5119 - 22))).
  assert (D : forall b ds, forallb (fun d => (0 <=? d) && (d <? b)) ds = true -> Forall (fun d => 0 <= d < b) ds).
  { intros b ds H. apply Forall_forall. intros d I. rewrite forallb_forall in H. specialize (H d I). apply andb_true_iff in H as (A & B).
    apply Z.leb_le in A. apply Z.ltb_lt in B. lia. }
  assert (W : forall b v ds, ds <> [] -> forallb (fun d => (0 <=? d) && (d <? b)) ds = true -> v = fold_left (fun a d => a * b + d) ds 0 -> written b v (map digit_char ds)).
  { intros b v ds A B C. exists ds. auto. }
  assert (Nm : forallb (fun c => negb (c =? 10) && negb (c =? 0)) name = true) by (vm_compute; reflexivity).
  rewrite forallb_forall in Nm.
  assert (Hd : exists r, name = 97 :: r).
  { exists (repeat 97 (5118 - 22) ++ x). unfold name. replace (5119 - 22)%nat with (S (5118 - 22)). reflexivity. apply Nat.eqb_eq. vm_compute. reflexivity. }
  split; [|split; [|split]].
  - exists (map digit_char [0]), (map digit_char [1]), (map digit_char [0]), (map digit_char [0]), (map digit_char [0]), (map digit_char [0]), (repeat 32 6).
    cbn [e_start e_end e_flags e_offset e_major e_minor e_inode e_name].
    split; [reflexivity|]. repeat (split; [apply W; [discriminate|reflexivity|reflexivity]|]).
    split; [reflexivity|]. split. repeat constructor; cbn; tauto. split. repeat constructor.
    split. destruct Hd as (r & ->). split. discriminate. lia.
    split; intros I; specialize (Nm _ I); discriminate.
  - unfold entry_ok. cbn. lia.
  - vm_compute. reflexivity.
  - intros E. apply (f_equal (fun e => length (e_name e))) in E. apply Nat.eqb_eq in E. vm_compute in E. discriminate.
Qed.
Print Assumptions proc_maps_long_line_refuted.

(** Finding: a read that fails cuts a line: the end of the mapping is wrong. *)
Theorem proc_maps_failed_read_refuted : exists line e w,
  map_line e line /\ entry_ok e /\ s_rest w = file_text [line] [] /\
  pm_calls 1 (pm_init w) <> Some [Some e] /\ exists e', pm_calls 1 (pm_init w) = Some [Some e'].
Proof.
  exists (nth 0 ex_lines []), (nth 0 ex_entries (mk_entry 0 0 [] 0 0 0 0 [])).
  exists (mk_source (file_text [nth 0 ex_lines []] []) [RGive 28; RFail 5] []).
  destruct ex_maps_lines as (F & O & _). inversion F; subst. inversion O; subst.
  split; [assumption|]. split; [assumption|]. split; [reflexivity|].
  assert (E : pm_calls 1 (pm_init (mk_source (file_text [nth 0 ex_lines []] []) [RGive 28; RFail 5] [])) = Some [Some (mk_entry 32512 32640 [114;45;120;112] 16 8 1 12 [])]) by (vm_compute; reflexivity).
  rewrite E. split; [discriminate|eauto].
Qed.
Print Assumptions proc_maps_failed_read_refuted.
