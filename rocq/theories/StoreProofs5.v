(** ca_chunk_file_save and ca_store_put: what they leave behind, whatever fails. *)
From Verif Require Import Base ChunkId ChunkIdProofs Posix PosixProofs ChunkFile Store StoreSpec StoreProofs1 StoreProofs2 StoreProofs3 StoreProofs4.
Local Open Scope N_scope.
Local Opaque BUFFER_SIZE CHUNK_LIMIT_MAX CHUNK_LIMIT_MIN.

Definition form (effective desired : chunk_compression) : chunk_compression :=
  if compression_eqb desired AS_IS then effective else desired.

Definition tmp_name (root id q : list N) : Prop := exists v, q = chunk_id_format_path root id (tmp_suffix v).

(** Files that exist are not written to. *)
Definition files_kept (w w' : world) : Prop := forall i c, nth_error (w_inodes w) i = Some c -> nth_error (w_inodes w') i = Some c.

Lemma files_kept_refl w : files_kept w w. Proof. intros i c H; exact H. Qed.
Lemma files_kept_trans a b c : files_kept a b -> files_kept b c -> files_kept a c. Proof. unfold files_kept; auto. Qed.
Lemma files_kept_same d a b : same_but d a b -> files_kept a b. Proof. intros [H _] i c Hi. rewrite H. exact Hi. Qed.

(** What a save of [p] as chunk [id] in the form [fc] may change; [done]: it must be there afterwards. *)
Definition save_effect (L : N) (codecs : ctype -> option codec) (w w' : world) (root id : list N) (fc : chunk_compression) (p : list N) (done : Prop) : Prop :=
  files_kept w w' /\
  (forall q, q <> chunk_name root id fc -> q <> subdir root id -> ~ tmp_name root id q -> name_at w' q = name_at w q) /\
  let stored := present w root id = false /\
    exists content, file_at w' (chunk_name root id fc) = Some content /\ represents codecs fc content p /\ len content < L in
  (name_at w' (chunk_name root id fc) = name_at w (chunk_name root id fc) \/ stored) /\
  (done -> stored).

Lemma present_false w root id c : present w root id = false -> c = UNCOMPRESSED \/ c = COMPRESSED -> name_at w (chunk_name root id c) = None.
Proof.
  unfold present. intros H [->| ->]; destruct (name_at w (chunk_name root id COMPRESSED)); try discriminate;
    destruct (name_at w (chunk_name root id UNCOMPRESSED)); try discriminate; reflexivity.
Qed.

Lemma names_differ root id c v : id_ok id = true -> chunk_id_format_path root id (tmp_suffix v) <> chunk_name root id c.
Proof.
  intros Hid H. unfold chunk_name in H. apply path_inj in H; [|exact Hid..]. destruct H as [_ H].
  destruct (tmp_not_final v) as [H1 H2]. destruct c; auto.
Qed.

Lemma suffix_no_slash c : no_slash (match c with UNCOMPRESSED => [] | _ => cacnk end).
Proof. destruct c; [intros []|apply cacnk_no_slash..]. Qed.

Lemma subdir_not_chunk root a b c : id_ok b = true -> subdir root a <> chunk_name root b c.
Proof. intros H. unfold chunk_name. apply subdir_not_path. exact H. Qed.

(** [L] is a limit on the size of files. *)
Section Save.
Context (codecs : ctype -> option codec) (bound : N -> N) (HC : codecs_ok bound codecs) (L : N) (HL : CHUNK_LIMIT_MAX <= L).

Lemma save_write_exec f fuel w fd i effective desired t data p w' r :
  effective <> AS_IS -> desired <> AS_IS -> represents codecs effective data p -> len data < L -> writing w fd i [] ->
  exec f w (if compression_eqb desired effective then loop_write fuel fd data
            else if compression_eqb desired COMPRESSED then save_and_compress_fd codecs fuel fd t data
            else save_and_decompress_fd codecs fuel fd data) w' r ->
  exists c, w' = wrote w fd i c /\ (r = Ok tt -> represents codecs desired c p /\ len c < L).
Proof.
  intros He Hd Hrep Hl HW H.
  assert (forall (e : res unit), e <> Ok tt -> w' = w -> r = e -> exists c, w' = wrote w fd i c /\ (r = Ok tt -> represents codecs desired c p /\ len c < L)) as Hno.
  { intros e Hne -> ->. exists []. rewrite wrote_same by exact HW. split; [reflexivity|congruence]. }
  destruct (compression_eqb desired effective) eqn:E.
  { assert (desired = effective) by (destruct desired, effective; cbn in E; congruence). subst effective.
    destruct (loop_write_exec _ _ _ _ _ _ _ _ _ H HW) as (q & -> & Hq). exists q. split; [reflexivity|]. intros Hr. rewrite (Hq Hr). auto. }
  destruct (compression_eqb desired COMPRESSED) eqn:E2.
  - assert (desired = COMPRESSED) by (destruct desired; cbn in E2; congruence). subst desired.
    assert (effective = UNCOMPRESSED) by (destruct effective; cbn in E; congruence). subst effective. cbn in Hrep. subst p.
    unfold save_and_compress_fd in H. destruct (bad_size data); [ret H; eapply Hno; [|reflexivity..]; discriminate|].
    unfold start_codec in H. destruct t as [t|]; [|ret H; eapply Hno; [|reflexivity..]; discriminate].
    destruct (codecs t) as [cd|] eqn:Ec; [|ret H; eapply Hno; [|reflexivity..]; discriminate].
    destruct HC as [_ HC2]. pose proof (codec_ok_encodes _ _ _ (HC2 _ _ Ec)) as HE.
    destruct (save_compress_exec bound t cd f fuel w fd (enc_new cd) [] [] None data 0 w' r i [] H HW HE) as (q & -> & Hq).
    + discriminate.
    + reflexivity.
    + exists q. split; [reflexivity|]. intros Hr. destruct (Hq Hr) as (A & B & C). cbn [app] in *. split; [|eapply N.lt_le_trans; [exact C|exact HL]]. exists t, cd. auto.
  - assert (desired = UNCOMPRESSED) by (destruct desired; cbn in E2; congruence). subst desired.
    assert (effective = COMPRESSED) by (destruct effective; cbn in E; congruence). subst effective. cbn in Hrep.
    destruct Hrep as (t0 & cd & H1 & H2 & H3).
    unfold save_and_decompress_fd in H. destruct (bad_size data); [ret H; eapply Hno; [|reflexivity..]; discriminate|].
    unfold detect_all in H. rewrite H1 in H. cbn [bind start_codec] in H. rewrite H2 in H.
    destruct (save_decompress_exec cd f fuel w fd (dec_new cd) data p 0 w' r i [] H HW H3) as (q & -> & Hq).
    exists q. split; [reflexivity|]. intros Hr. destruct (Hq Hr) as [-> Hlt]. cbn. split; [reflexivity|lia].
Qed.

Lemma save_exec f fuel w root id effective desired t data p w' r :
  id_ok id = true -> represents codecs effective data p -> len data < L ->
  exec f w (chunk_file_save codecs fuel root id effective desired t data) w' r ->
  save_effect L codecs w w' root id (form effective desired) p (r = Ok tt).
Proof.
  intros Hid Hrep Hl H. set (fc := form effective desired). set (F := chunk_name root id fc).
  assert (forall w', same_but (eq (subdir root id)) w w' -> r <> Ok tt -> save_effect L codecs w w' root id fc p (r = Ok tt)) as Hno.
  { intros w1 Hs Hr. split; [eapply files_kept_same; eauto|]. destruct Hs as [_ Hs]. split; [intros q _ Hq _; apply Hs; congruence|].
    split; [left; apply Hs; apply subdir_not_chunk; exact Hid|congruence]. }
  unfold chunk_file_save in H. destruct (compression_eqb effective AS_IS) eqn:Ea; [ret H; apply Hno; [apply same_but_refl|discriminate]|].
  assert (effective <> AS_IS) as Hea by (destruct effective; cbn in Ea; congruence).
  assert (fc <> AS_IS) as Hfc by (unfold fc, form; destruct desired; cbn; congruence).
  destruct data as [|d0 data']; [ret H; apply Hno; [apply same_but_refl|discriminate]|]. set (data := d0 :: data') in *.
  unfold ptry at 1 in H. apply exec_bind in H. destruct H as (w1 & r1 & H1 & H). apply test_exec in H1. destruct H1 as [-> Hp].
  destruct r1 as [[]|er| |]; try (ret H; apply Hno; [apply same_but_refl|discriminate]).
  specialize (Hp _ eq_refl). symmetry in Hp.
  apply exec_sys_inv in H. destruct H as (w1 & r1 & Hs & H). destruct (sys_random _ _ _ _ Hs) as [(_ & -> & e & -> & _)|(v & -> & -> & _)];
    [ret H; apply Hno; [apply same_but_refl|discriminate]|].
  cbv zeta in H. set (T := chunk_id_format_path root id (tmp_suffix v)) in *.
  unfold ptry in H. apply exec_bind in H. destruct H as (w1 & r1 & H1 & H).
  apply create_exec in H1; [|apply tmp_no_slash]. fold T in H1.
  destruct r1 as [fd|er| |]; try (ret H; apply Hno; [exact H1|discriminate]).
  destruct H1 as (w0 & Hs0 & HT & Hf0 & -> & ->). fold fc in H.
  change (if compression_eqb desired AS_IS then effective else desired) with fc in H.
  set (n := length (w_inodes w0)) in *. set (w1 := add_fd (add_file w0 T) n) in *. set (fd := length (w_fds w)) in *.
  assert (writing w1 fd n []) as HW.
  { unfold writing, w1, fd, n. cbn. rewrite <- Hf0. split.
    - rewrite nth_error_app2, Nat.sub_diag by lia. reflexivity.
    - rewrite nth_error_app2, Nat.sub_diag by lia. reflexivity. }
  apply exec_bind in H. destruct H as (w2 & r2 & H2 & H).
  destruct (save_write_exec f fuel w1 fd n effective fc t data p w2 r2 Hea Hfc Hrep Hl HW H2) as (c & -> & Hc).
  set (w2 := wrote w1 fd n c) in *.
  assert (T <> F) as HTF by (apply names_differ; exact Hid).
  assert (subdir root id <> F) as HDF by (apply subdir_not_chunk; exact Hid).
  assert (files_kept w w2) as Hk2.
  { intros i x Hi. destruct Hs0 as [Hi0 _]. unfold w2, wrote, w1. cbn. rewrite nth_replace_other.
    - rewrite nth_error_app1; [rewrite Hi0; exact Hi|]. rewrite Hi0. apply nth_error_Some. congruence.
    - unfold n. rewrite Hi0. assert (i < length (w_inodes w))%nat by (apply nth_error_Some; congruence). lia. }
  assert (nth_error (w_inodes w2) n = Some c) as Hn2 by (destruct (wrote_writing w1 fd n [] c HW) as [_ Hx]; exact Hx).
  assert (forall q, q <> T -> q <> subdir root id -> name_at w2 q = name_at w q) as Hq2.
  { intros q Hq1 Hq2'. destruct Hs0 as [_ Hs0]. transitivity (name_at w0 q); [|apply Hs0; congruence].
    unfold w2, wrote, w1. rewrite name_set_pos, name_set_content, name_add_fd, name_add_file. assert (beq T q = false) as -> by (apply beq_neq; congruence). reflexivity. }
  assert (name_at w2 T = Some (NFile n)) as HT2. { unfold w2, wrote, w1. rewrite name_set_pos, name_set_content, name_add_fd, name_add_file, beq_refl. reflexivity. }
  assert (name_at w F = None) as HF. { apply (present_false w root id fc Hp). destruct fc; [auto|auto|congruence]. }
  assert (name_at w2 F = None) as HF2 by (rewrite Hq2; congruence).
  assert (tmp_name root id T) as HTt by (exists v; reflexivity).
  (* what happens after the renaming, or without it *)
  assert (forall w3 w4, same_but (fun x => x = T \/ x = F) w2 w3 -> same_but (fun q => q = T \/ q = subdir root id) w3 w4 ->
    (name_at w3 F = name_at w2 F \/ (name_at w2 F = None /\ name_at w3 F = Some (NFile n) /\ represents codecs fc c p /\ len c < L)) ->
    (r = Ok tt -> name_at w3 F = Some (NFile n) /\ represents codecs fc c p /\ len c < L) ->
    save_effect L codecs w w4 root id fc p (r = Ok tt)) as Hend.
  { intros w3 w4 S3 S4 Hor Hok. split; [|split; [|split]].
    - eapply files_kept_trans; [exact Hk2|]. eapply files_kept_trans; eapply files_kept_same; eauto.
    - intros q HqF HqD HqT. destruct S4 as [_ S4], S3 as [_ S3].
      rewrite S4, S3, Hq2; auto; intros E; try (intros [?|?]); try destruct E; subst; auto.
    - fold F. destruct S4 as [Hi4 S4], S3 as [Hi3 S3]. assert (name_at w4 F = name_at w3 F) as E4 by (apply S4; intros [?|?]; congruence).
      destruct Hor as [Hor|(_ & Hor & Hr & Hlc)]; [left; rewrite E4, Hor, HF2, HF; reflexivity|right].
      split; [exact Hp|]. exists c. split; [|auto]. unfold file_at. rewrite E4, Hor, Hi4, Hi3. exact Hn2.
    - intros Hr. clear Hor; destruct (Hok Hr) as (Hor & Hrr & Hlc). split; [exact Hp|]. exists c. split; [|auto].
      destruct S4 as [Hi4 S4], S3 as [Hi3 S3]. assert (name_at w4 F = name_at w3 F) as E4 by (apply S4; intros [?|?]; congruence).
      fold F. unfold file_at. rewrite E4, Hor, Hi4, Hi3. exact Hn2. }
  destruct r2 as [[]|er| |].
  - specialize (Hc eq_refl). apply exec_bind in H. destruct H as (w3 & r3 & H3 & H).
    change (chunk_id_format_path root id (if compression_eqb fc COMPRESSED then cacnk else []))  with
      (chunk_id_format_path root id (if compression_eqb fc COMPRESSED then cacnk else [])) in H3.
    assert (chunk_id_format_path root id (if compression_eqb fc COMPRESSED then cacnk else []) = F) as EF.
    { unfold F, chunk_name. destruct fc; [reflexivity|reflexivity|congruence]. }
    rewrite EF in H3. destruct (rename_exec f w2 T F w3 r3 (NFile n) HTF HT2 H3) as (S3 & Hor & Hok).
    assert (name_at w3 F = name_at w2 F \/ (name_at w2 F = None /\ name_at w3 F = Some (NFile n) /\ represents codecs fc c p /\ len c < L)) as Hor'.
    { destruct Hor as [Hor|[H5 H6]]; [left; exact Hor|right]. split; [exact H5|]. split; [exact H6|exact Hc]. }
    destruct r3 as [[]|er| |].
    + ret H. eapply (Hend w3 w3); [exact S3|apply same_but_refl|exact Hor'|]. intros _. destruct (Hok eq_refl) as [_ Hx]. split; [exact Hx|exact Hc].
    + apply exec_bind in H. destruct H as (w4 & r4 & H4 & H). ret H. apply unlink_exec in H4; [|apply tmp_no_slash]. fold T in H4.
      eapply (Hend w3 w4); [exact S3|exact H4|exact Hor'|discriminate].
    + ret H. eapply (Hend w3 w3); [exact S3|apply same_but_refl|exact Hor'|discriminate].
    + ret H. eapply (Hend w3 w3); [exact S3|apply same_but_refl|exact Hor'|discriminate].
  - apply exec_bind in H. destruct H as (w4 & r4 & H4 & H). ret H. apply unlink_exec in H4; [|apply tmp_no_slash]. fold T in H4.
    eapply (Hend w2 w4); [apply same_but_refl|exact H4|left; reflexivity|discriminate].
  - ret H. eapply (Hend w2 w2); [apply same_but_refl|apply same_but_refl|left; reflexivity|discriminate].
  - ret H. eapply (Hend w2 w2); [apply same_but_refl|apply same_but_refl|left; reflexivity|discriminate].
Qed.
End Save.
