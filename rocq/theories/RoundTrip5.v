(** Decoding what the encoder writes, part 5: the whole archive; what is stored is determined by the file tree, and by the
    archive. *)
From Coq Require Import Sorted Permutation.
From Verif Require Import Base FeatureFlags FeatureFlagsSpec FeatureFlagsProofs ArchiveBase Bst Decoder DecoderSpec DecoderProofs DecoderProofs2
  DecoderProofs3 DecoderProofs4 DecoderProofs5 DecoderProofs6 DecoderProofs7 DecoderProofs8 Encoder EncoderSpec EncoderProofs EncoderProofs2 EncoderProofs3 ArchiveSpec
  RoundTrip1 RoundTrip2 RoundTrip3 RoundTrip4 EncoderProofs4 EncoderProofs5.
Local Open Scope N_scope.

Lemma replay_ok stream mask : only_known_bits stream -> exists g, determine_replay_feature_flags stream mask = Ok g.
Proof.
  intros K. unfold determine_replay_feature_flags.
  assert (Hm : stream <> UINT64_MAX) by (apply known_not_max, K). set (t := N.land _ _).
  assert (Kt : only_known_bits t).
  { intros k. unfold t. rewrite N.land_spec, normalize_mask_bits by exact Hm. intros [H _]%andb_true_iff.
    revert H. apply nmb_known. intros j [_ J]%andb_true_iff. exact J. }
  apply only_known_ok in Kt. destruct (normalize_ok t Kt) as (g & E & _). eauto.
Qed.

Lemma ff_accepted env ev : configured ev -> (de_expected env = UINT64_MAX \/ de_expected env = ev_ff ev) -> ff_ok env (ev_ff ev) UINT64_MAX.
Proof.
  intros C E. destruct (configured_fine ev C) as [K A _]. pose proof (known_not_max _ K) as Nm.
  split; [|split; [apply only_known_mask, K|]].
  - unfold validate_feature_flags. rewrite (if_eqb_false _ _ _ _ Nm).
    replace (negb (de_expected env =? UINT64_MAX) && negb (ev_ff ev =? de_expected env))%bool with false
      by (destruct E as [-> | ->]; rewrite N.eqb_refl, ?andb_false_r; reflexivity).
    rewrite (are_normalized_bits _ K), A. cbn [negb]. rewrite N.eqb_refl. destruct (replay_ok (ev_ff ev) (de_mask env) K) as [g ->]. reflexivity.
  - apply only_known_mask in K. assert (H : ev_ff ev = N.land (ev_ff ev) FEATURE_FLAGS_MAX).
    { apply N.bits_inj. intros k. rewrite N.land_spec. pose proof (f_equal (fun x => N.testbit x k) K) as X. cbn beta in X.
      rewrite N.ldiff_spec, N.bits_0 in X. destruct (N.testbit (ev_ff ev) k), (N.testbit FEATURE_FLAGS_MAX k); auto. }
    rewrite H. apply N.le_lt_trans with FEATURE_FLAGS_MAX; [|reflexivity].
    clear. rewrite N.land_comm. generalize (ev_ff ev). intros n.
    apply N.ldiff_le, N.bits_inj_0. intros k. rewrite N.ldiff_spec, N.land_spec.
    destruct (N.testbit FEATURE_FLAGS_MAX k); [rewrite andb_false_r|]; reflexivity.
Qed.

(** A complete archive. *)
Theorem archive_stored ev f e o : configured ev -> qsort_ok (ev_qsort ev) -> storable ev [] f -> S_ISDIR (f_mode f) = true ->
  encoder_new f = Ok e -> eruns ev e o EFinished ->
  exists t, stores ev [] f t /\ arch ev t o /\ deep 63 t /\ dec_tree (ev_ff ev) t.
Proof.
  intros C Q St D H R. pose proof (new_runs ev f e o _ H R) as [(m & M1 & M2) M3]. rewrite (M2 eq_refl), app_nil_r in M1. clear m M2.
  cbn [fst snd] in M1, M3. unfold encode in *.
  assert (Rf : S_ISREG (f_mode f) = false) by (unfold S_ISREG, S_ISDIR in *; rewrite (is_type_inj _ _ _ D); reflexivity). rewrite Rf in *.
  destruct (enc_file ev 63 [] None f 0 ecache0) as [b r] eqn:E. cbn [fst snd] in *. subst b.
  destruct r as [[a' c']| | |]; try discriminate.
  destruct (file_ok ev Q (configured_fine ev C) 63 [] None f 0 ecache0 o a' c') as (_ & t & T); auto; [discriminate|apply cache0_ok|].
  exists t. exact T.
Qed.

Lemma stores_dir_dir ev path f t : stores ev path f t -> storable ev path f -> S_ISDIR (f_mode f) = true -> exists m ents, t = TDir m ents.
Proof.
  intros S St D. unfold f_mode in D. inversion S; subst; inversion St; subst; cbn [f_stat] in D; eauto;
    unfold S_ISREG, S_ISDIR, S_ISLNK, S_ISBLK, S_ISCHR, S_ISFIFO, S_ISSOCK in *; rewrite ?orb_true_iff in *; exfalso;
    repeat match goal with H : _ \/ _ |- _ => destruct H end;
    match goal with H : is_type (st_mode ?s) ?x = true |- _ => match x with S_IFDIR => fail 1 | _ => rewrite (is_type_inj _ _ _ D) in H; discriminate H end end.
Qed.

Theorem archive_shown env ev f e o mode d obs r : configured ev -> qsort_ok (ev_qsort ev) -> storable ev [] f -> S_ISDIR (f_mode f) = true ->
  encoder_new f = Ok e -> eruns ev e o EFinished -> len o < UINT64_MAX - 16 ->
  (de_expected env = UINT64_MAX \/ de_expected env = ev_ff ev) -> S_ISDIR mode = true -> decoder_new mode = Ok d ->
  drun env d o obs r -> r = Finished [] /\ exists t, stores ev [] f t /\ arch ev t o /\ dec_tree (ev_ff ev) t /\ obs = tree_obs [] t.
Proof.
  intros C Q St D H R L Ex Dm Hd Rd. destruct (archive_stored ev f e o C Q St D H R) as (t & S & A & Dp & Dt).
  pose proof (Inv_new _ _ Hd) as HI. apply drun_erun in Rd; [|exact HI|rewrite (new_eof _ _ Hd); discriminate].
  unfold decoder_new in Hd. destruct (_ && _ && _)%bool; [discriminate|]. apply Ok_inj in Hd.
  destruct (stores_dir_dir _ _ _ _ S St D) as (m & ents & Et).
  assert (X : erun env (full d o) (tree_obs [] t ++ []) (Finished [])).
  { subst d. rewrite Dm.
    eapply (proj1 (run_tree env ev 0) t o A Dt 63%nat D_INIT (full (mkDec D_INIT UINT64_MAX [mkDnode [] 0 None mode] [] false 0 0 0 0) o)
      (mkDnode [] 0 None mode) [] [] 0 UINT64_MAX [] (Finished [])).
    - reflexivity.
    - exact Dp.
    - vm_compute. discriminate.
    - constructor; try reflexivity; cbn [full d_buf d_step]; rewrite ?app_nil_r, ?dropN_0; try reflexivity. lia.
    - rewrite N.add_0_l. exact L.
    - right. auto.
    - intros _. eauto.
    - apply ff_accepted; assumption.
    - reflexivity.
    - subst t. exact I.
    - intros d' nd' _ Rd'.
      assert (E : exists d2, decoder_step env d' = Ok (R_FINISHED, d2) /\ d_buf d2 = []).
      { eexists. split; [erewrite (ready_step env ev 0 d' D_FINALIZE); [|exact Rd'|..]|]; [reflexivity|unfold two64, UINT64_MAX in *; lia|discriminate|discriminate|reflexivity]. }
      destruct E as (d2 & E1 & E2). rewrite <- E2. eapply erun_finished. exact E1. }
  rewrite app_nil_r in X. destruct (erun_det _ _ _ _ Rd _ _ X) as [-> ->]. split; [reflexivity|]. eauto.
Qed.

(** ** What is stored is determined by the file tree *)
Lemma ascending_unique {A} (cmp : A -> A -> comparison) l1 l2 : (forall x y, cmp y x = CompOpp (cmp x y)) ->
  StronglySorted (fun x y => cmp x y = Lt) l1 -> StronglySorted (fun x y => cmp x y = Lt) l2 ->
  (forall x, In x l1 <-> In x l2) -> l1 = l2.
Proof.
  intros An S1 S2 I.
  assert (Irr : forall x, cmp x x <> Lt) by (intros x E; pose proof (An x x) as Z; rewrite E in Z; discriminate).
  assert (ND : forall l, StronglySorted (fun x y => cmp x y = Lt) l -> NoDup l).
  { induction 1 as [|x l S IH F]; constructor; [|exact IH]. intros Hx. rewrite Forall_forall in F. exact (Irr x (F x Hx)). }
  apply (sorted_unique (fun x y => cmp x y = Lt)); auto.
  - apply NoDup_Permutation; auto.
  - intros x y _ _ H1 H2. rewrite An, H1 in H2. discriminate.
Qed.

Lemma opt_ext {A} (o1 o2 : option A) : (forall v, o1 = Some v <-> o2 = Some v) -> o1 = o2.
Proof. destruct o1 as [v|]; intros H; [symmetry; apply H; reflexivity|]. destruct o2 as [v|]; [|reflexivity]. apply (H v). reflexivity. Qed.

Lemma named_unique ev tag lookup acl l1 l2 : named ev tag lookup acl l1 -> named ev tag lookup acl l2 -> l1 = l2.
Proof. intros [A1 B1] [A2 B2]. apply (ascending_unique acl_cmp); auto using acl_cmp_antisym. intros x. rewrite B1, B2. reflexivity. Qed.

Lemma unnamed_unique tag acl p q : once tag acl -> unnamed tag acl p -> unnamed tag acl q -> p = q.
Proof.
  intros O [(r & I & T & ->) | [N ->]] [(r' & I' & T' & ->) | [N' ->]].
  - rewrite (O r r'); auto.
  - exfalso. eauto.
  - exfalso. eauto.
  - reflexivity.
Qed.

Lemma xattr_sorted_unique (l1 l2 : list (list N * list N)) : StronglySorted (fun x y => str_lt (fst x) (fst y)) l1 ->
  StronglySorted (fun x y => str_lt (fst x) (fst y)) l2 -> (forall x, In x l1 <-> In x l2) -> l1 = l2.
Proof. apply (ascending_unique (fun x y => strcmp (fst x) (fst y))). intros x y. apply strcmp_antisym. Qed.

Lemma meta_unique ev s m1 m2 : stat_ok ev s -> meta_stored ev s m1 -> meta_stored ev s m2 -> m1 = m2.
Proof.
  intros So H1 H2.
  assert (OA : forall t, once t (fs_acl s) -> once t (the_acl ev s)).
  { intros t O. unfold the_acl. destruct (_ && _)%bool; [exact O|intros ? ? []]. }
  assert (OD : forall t, once t (fs_default_acl s) -> once t (the_default_acl ev s)).
  { intros t O. unfold the_default_acl. destruct (_ && _)%bool; [exact O|intros ? ? []]. }
  pose proof (so_acl _ _ So) as Q1. pose proof (so_default_acl _ _ So) as Q2.
  assert (E1 : m_flags m1 = m_flags m2).
  { apply N.bits_inj. intros k. pose proof (ms_flags _ _ _ H1 k) as A. pose proof (ms_flags _ _ _ H2 k) as B. rewrite <- B in A.
    destruct (N.testbit (m_flags m1) k), (N.testbit (m_flags m2) k); try reflexivity; [symmetry; apply A; reflexivity|apply A; reflexivity]. }
  assert (E2 : m_mtime m1 = m_mtime m2).
  { pose proof (ms_time _ _ _ H1) as A. pose proof (ms_time _ _ _ H2) as B. unfold stored_time in A, B.
    destruct (m_granule (meaning_of (ev_ff ev))) as [g|] eqn:G; [|congruence].
    destruct A as [A1 A2], B as [B1 B2].
    assert (Hg : 0 < g) by (eapply granule_pos, G).
    pose proof (N.div_mod' (m_mtime m1) g) as D1. pose proof (N.div_mod' (m_mtime m2) g) as D2. rewrite A1 in D1. rewrite B1 in D2.
    assert (Z1 : m_mtime m1 < m_mtime m2 + g) by lia. assert (Z2 : m_mtime m2 < m_mtime m1 + g) by lia.
    rewrite D1, D2 in Z1, Z2. rewrite D1, D2. 
    assert (X : m_mtime m1 / g = m_mtime m2 / g) by (clear -Z1 Z2 Hg; nia). rewrite X. reflexivity. }
  assert (E3 : m_xattrs m1 = m_xattrs m2).
  { apply xattr_sorted_unique; [apply (ms_xattrs_sorted _ _ _ H1)|apply (ms_xattrs_sorted _ _ _ H2)|].
    intros x. rewrite (ms_xattrs _ _ _ H1), (ms_xattrs _ _ _ H2). reflexivity. }
  assert (E4 : m_acl_group_obj m1 = m_acl_group_obj m2).
  { destruct (ms_acl_group_obj _ _ _ H1) as [[A1 A2] | [A1 A2]], (ms_acl_group_obj _ _ _ H2) as [[B1 B2] | [B1 B2]]; try tauto; [|congruence].
    eapply unnamed_unique; [exact (OA _ (ao_group_obj _ _ Q1))|exact A2|exact B2]. }
  assert (E5 : m_fcaps m1 = m_fcaps m2).
  { apply opt_ext. intros v. rewrite (ms_fcaps _ _ _ H1), (ms_fcaps _ _ _ H2). reflexivity. }
  assert (E6 : m_projid m1 = m_projid m2).
  { apply opt_ext. intros v. rewrite (ms_projid _ _ _ H1), (ms_projid _ _ _ H2). reflexivity. }
  pose proof (unnamed_unique _ _ _ _ (OD _ (ao_user_obj _ _ Q2)) (ms_acl_duo _ _ _ H1) (ms_acl_duo _ _ _ H2)) as U1.
  pose proof (unnamed_unique _ _ _ _ (OD _ (ao_group_obj _ _ Q2)) (ms_acl_dgo _ _ _ H1) (ms_acl_dgo _ _ _ H2)) as U2.
  pose proof (unnamed_unique _ _ _ _ (OD _ (ao_other _ _ Q2)) (ms_acl_do _ _ _ H1) (ms_acl_do _ _ _ H2)) as U3.
  pose proof (unnamed_unique _ _ _ _ (OD _ (ao_mask _ _ Q2)) (ms_acl_dm _ _ _ H1) (ms_acl_dm _ _ _ H2)) as U4.
  pose proof (named_unique _ _ _ _ _ _ (ms_acl_user _ _ _ H1) (ms_acl_user _ _ _ H2)) as N1.
  pose proof (named_unique _ _ _ _ _ _ (ms_acl_group _ _ _ H1) (ms_acl_group _ _ _ H2)) as N2.
  pose proof (named_unique _ _ _ _ _ _ (ms_acl_du _ _ _ H1) (ms_acl_du _ _ _ H2)) as N3.
  pose proof (named_unique _ _ _ _ _ _ (ms_acl_dg _ _ _ H1) (ms_acl_dg _ _ _ H2)) as N4.
  pose proof (ms_mode _ _ _ H1) as A1. rewrite <- (ms_mode _ _ _ H2) in A1.
  pose proof (ms_uid _ _ _ H1) as A2. rewrite <- (ms_uid _ _ _ H2) in A2.
  pose proof (ms_gid _ _ _ H1) as A3. rewrite <- (ms_gid _ _ _ H2) in A3.
  pose proof (ms_user _ _ _ H1) as A4. rewrite <- (ms_user _ _ _ H2) in A4.
  pose proof (ms_group _ _ _ H1) as A5. rewrite <- (ms_group _ _ _ H2) in A5.
  pose proof (ms_selinux _ _ _ H1) as A6. rewrite <- (ms_selinux _ _ _ H2) in A6.
  clear -E1 E2 E3 E4 E5 E6 U1 U2 U3 U4 N1 N2 N3 N4 A1 A2 A3 A4 A5 A6. destruct m1, m2. cbn in *. subst. reflexivity.
Qed.

Fixpoint size_of (f : fnode) : nat :=
  match f with FDir _ ents => S (list_sum (map (fun e => size_of (snd e)) ents)) | _ => 1 end.
Lemma size_child s ents n ch : In (n, ch) ents -> (size_of ch < size_of (FDir s ents))%nat.
Proof.
  intros H. cbn [size_of]. apply Nat.lt_succ_r. induction ents as [|e ents IH]; [contradiction|]. cbn [map list_sum].
  unfold list_sum in *. cbn [fold_right]. destruct H as [-> | H]; [cbn [snd]; lia|]. specialize (IH H). lia.
Qed.

Theorem stores_unique ev : forall n path f t1 t2, (size_of f < n)%nat -> storable ev path f -> stores ev path f t1 -> stores ev path f t2 -> t1 = t2.
Proof.
  induction n as [|n IH]; [lia|]. intros path f t1 t2 Hn St H1 H2.
  inversion H1; subst; inversion H2; subst; inversion St; subst; try congruence;
    match goal with A : meta_stored _ _ ?m, B : meta_stored _ _ ?m' |- _ => assert (m = m') by (eapply meta_unique; eassumption); subst end; try reflexivity.
  f_equal. match goal with A : Forall2 _ ?k1 _, B : Forall2 _ ?k2 _ |- _ => assert (K : k1 = k2) end.
  { apply (ascending_unique (fun x y => strcmp (fst x) (fst y))); auto; [intros; apply strcmp_antisym|].
    intros x. match goal with A : forall e, In e ?k1 <-> _, B : forall e, In e ?k2 <-> _ |- In x ?k1 <-> _ => rewrite A, B end. reflexivity. }
  subst.
  match goal with A : Forall2 _ ?k1 ?l1, B : Forall2 _ ?k1 ?l2, I : forall e, In e ?k1 <-> _, S : forall e, In e ents -> _ |- _ =>
    rename A into F1, B into F2, I into I1, S into S1; clear - IH F1 F2 I1 S1 Hn end.
  assert (J : forall e, In e kept0 -> In e ents /\ is_kept ev path (FDir s ents) e) by (intros e He; apply I1, He). clear I1.
  revert l0 F2. induction F1 as [|x y k l [X1 X2] F1 IH1]; intros l2 F2; inversion F2 as [|? z ? l3 [Y1 Y2] F3]; subst; [reflexivity|]. f_equal.
  - destruct (J x (or_introl eq_refl)) as [J1 J2]. destruct (S1 x J1 J2) as [_ S2]. destruct x as [n0 ch], y as [n1 t1], z as [n2 t2]. cbn [fst snd] in *. subst. f_equal.
    eapply IH; [|exact S2|exact X2|exact Y2]. pose proof (size_child s ents n2 ch J1). lia.
  - apply IH1; [|exact F3]. intros e He. apply J. right. exact He.
Qed.

(** ** What is shown determines the tree *)
Lemma bytes_stop d1 : forall d2 p q x y, map OByte d1 ++ ODone p :: x = map OByte d2 ++ ODone q :: y -> d1 = d2 /\ p = q /\ x = y.
Proof.
  induction d1 as [|b d1 IH]; intros [|b2 d2] p q x y H; cbn [map app] in H; try discriminate.
  - injection H as -> ->. auto.
  - injection H as -> H. apply IH in H as (-> & -> & ->). auto.
Qed.

Lemma path_longer (p : list (list N)) n : p <> p ++ [n].
Proof. intros H. apply (f_equal (@length _)) in H. rewrite app_length in H. cbn in H. lia. Qed.

Fixpoint size_tree (t : tree) : nat :=
  match t with TDir _ ents => S (list_sum (map (fun e => size_tree (snd e)) ents)) | _ => 1 end.

Theorem obs_unique ff ff2 : forall n t1, (size_tree t1 < n)%nat -> forall p t2 x y, dec_tree ff t1 -> dec_tree ff2 t2 -> tree_obs p t1 ++ x = tree_obs p t2 ++ y -> t1 = t2 /\ x = y.
Proof.
  induction n as [|n IH]; [lia|]. intros t1 Hn p t2 x y D1 D2 H.
  assert (Ex : forall m, S_ISDIR (m_mode m) = true -> (S_ISFIFO (m_mode m) || S_ISSOCK (m_mode m))%bool = true -> False).
  { unfold S_ISDIR, S_ISFIFO, S_ISSOCK. intros m E. rewrite !(is_type_inj _ _ _ E). discriminate. }
  destruct t1 as [m1 d1|m1 e1|m1 s1|m1 a1 b1|m1], t2 as [m2 d2|m2 e2|m2 s2|m2 a2 b2|m2]; cbn [tree_obs] in H; cbn [app] in H;
    try (injection H; intros; exfalso; congruence).
  - injection H as -> _ H. rewrite <- !app_assoc in H. cbn [app] in H. apply bytes_stop in H as (-> & _ & ->). auto.
  - injection H as -> H. rewrite <- !app_assoc in H. cbn [app] in H.
    assert (E : e1 = e2 /\ x = y); [|destruct E as [-> ->]; auto].
    inversion D1 as [| | | |? ? _ _ F1]; subst. inversion D2 as [| | | |? ? _ _ F2]; subst. clear D1 D2 Ex.
    assert (Sz : forall e, In e e1 -> (size_tree (snd e) < n)%nat).
    { intros e He. clear - Hn He. cbn [size_tree] in Hn. apply Nat.succ_lt_mono in Hn. eapply Nat.le_lt_trans; [|exact Hn]. clear Hn.
      induction e1 as [|z l IHl]; [contradiction|]. unfold list_sum in *. cbn [map fold_right]. destruct He as [-> | He]; [lia|]. specialize (IHl He). lia. }
    clear Hn. revert e2 F2 H. induction e1 as [|[n1 c1] e1 IHe]; intros [|[n2 c2] e2] F2 H; cbn [map concat app fst snd] in H.
    + injection H as ->. auto.
    + exfalso. rewrite <- app_assoc in H. destruct c2; cbn [tree_obs app] in H; discriminate.
    + exfalso. rewrite <- app_assoc in H. destruct c1; cbn [tree_obs app] in H; discriminate.
    + rewrite <- !app_assoc in H.
      assert (En : n1 = n2).
      { assert (Z : p ++ [n1] = p ++ [n2]) by (destruct c1, c2; cbn [tree_obs app] in H; congruence). apply app_inv_head in Z. congruence. }
      subst n2. apply IH in H; [|exact (Sz _ (or_introl eq_refl))|apply (Forall_inv F1)|apply (Forall_inv F2)]. destruct H as [-> H].
      apply IHe in H; [|exact (Forall_inv_tail F1)|intros e He; apply Sz; right; exact He|exact (Forall_inv_tail F2)]. destruct H as [-> ->]. auto.
  - exfalso. injection H as -> H. inversion D1; inversion D2; subst. eapply Ex; eassumption.
  - injection H as -> -> ->. auto.
  - injection H as -> -> -> ->. auto.
  - exfalso. injection H as -> H. inversion D1; inversion D2; subst. eapply Ex; eassumption.
  - injection H as -> ->. auto.
Qed.

(** The feature flags are in the archive. *)
Lemma arch_flags ev t o : configured ev -> arch ev t o -> fld 16 o = ev_ff ev.
Proof.
  intros C A. assert (B : ev_ff ev < two64) by (apply (ff_accepted (mkDenv UINT64_MAX 0) ev C); auto).
  assert (X : exists m r, o = obj F_ENTRY (entry_bytes (ev_ff ev) m) ++ r).
  { inversion A; subst; eexists; eexists; unfold ser_meta; [rewrite <- app_assoc; reflexivity ..| |]; [reflexivity|rewrite <- app_assoc; reflexivity]. }
  destruct X as (m & r & ->). change 16 with (16 + 0) at 1. rewrite obj_fld by (rewrite len_entry_bytes; lia). unfold entry_bytes. apply fld_0_le64, B.
Qed.
