(** C18, C20: an archive contains what is to be stored of a file tree, and nothing else determines it. *)
From Coq Require Import Sorted Permutation.
From Verif Require Import Base FeatureFlags FeatureFlagsSpec FeatureFlagsProofs ArchiveBase Bst Decoder DecoderSpec DecoderProofs4 DecoderProofs7
  Properties_Decoder Encoder EncoderSpec EncoderProofs EncoderProofs2 EncoderProofs3 Properties_Encoder ArchiveSpec RoundTrip5.
Local Open Scope N_scope.

(** C18. Take a file tree that can be stored (see ArchiveSpec.v for the limits), encode it with any supported feature
    flags, and decode the archive, feeding it in any pieces: what is shown is the stored tree, and decoding succeeds at the
    last byte of the archive. The stored tree is determined by the file tree. *)
Theorem archive_round_trip_partial :
  forall ev f e o env mode d, configured ev -> qsort_ok (ev_qsort ev) -> storable ev [] f -> S_ISDIR (f_mode f) = true ->
  encoder_new f = Ok e -> eruns ev e o EFinished -> len o < UINT64_MAX - 16 ->
  (de_expected env = UINT64_MAX \/ de_expected env = ev_ff ev) -> S_ISDIR mode = true -> decoder_new mode = Ok d ->
  exists t, stores ev [] f t /\ (forall t', stores ev [] f t' -> t' = t) /\
  forall ob r, drun env d o ob r -> ob = tree_obs [] t /\ r = Finished [].
Proof.
  intros ev f e o env mode d C Q St D H R L Ex Dm Hd. destruct (drun_total env mode d o Hd) as (ob & r & Rd & _).
  destruct (archive_shown env ev f e o mode d ob r C Q St D H R L Ex Dm Hd Rd) as (-> & t & S & _ & _ & ->).
  exists t. split; [exact S|]. split; [intros t' S'; eapply stores_unique; eauto|].
  intros ob' r' Rd'. destruct (drun_det _ _ _ _ _ _ _ _ Hd Rd Rd') as [<- <-]. auto.
Qed.
Print Assumptions archive_round_trip_partial.

(** C18. A regular file is its own archive, and is decoded to its contents. *)
Theorem blob_round_trip :
  forall ev s size data e o env mode d, S_ISREG (st_mode s) = true -> encoder_new (FReg s size data) = Ok e -> eruns ev e o EFinished ->
  S_ISDIR mode = false -> decoder_new mode = Ok d ->
  o = takeN size data /\ len o = size /\ forall ob r, drun env d o ob r -> ob = map OByte (takeN size data) /\ r = Finished [].
Proof.
  intros ev s size data e o env mode d Rg H R Dm Hd. pose proof (new_runs ev _ e o _ H R) as [(m & M1 & M2) M3].
  rewrite (M2 eq_refl), app_nil_r in M1. clear m M2. cbn [fst snd] in M1, M3. unfold encode in *. change (f_mode (FReg s size data)) with (st_mode s) in *.
  rewrite Rg in *. unfold enc_pay, can_read, enc_payload in *. cbn [f_size f_data] in *. rewrite N.sub_0_r, dropN_0 in *.
  destruct (N.leb_spec size (len data)) as [L | L]; cbn [fst snd wout wret] in M1, M3; [|discriminate]. rewrite app_nil_r in M1. subst o.
  split; [reflexivity|]. split; [rewrite len_takeN; lia|]. intros ob r Rd. eapply decode_blob; eauto.
Qed.
Print Assumptions blob_round_trip.

(** C20. If two file trees have the same archive, the same is stored of both: nothing that the feature flags select
    distinguishes them, and they were encoded with the same feature flags. *)
Theorem encoding_injective_partial :
  forall ev1 ev2 f1 f2 e1 e2 o, configured ev1 -> configured ev2 -> qsort_ok (ev_qsort ev1) -> qsort_ok (ev_qsort ev2) ->
  storable ev1 [] f1 -> storable ev2 [] f2 -> S_ISDIR (f_mode f1) = true -> S_ISDIR (f_mode f2) = true ->
  encoder_new f1 = Ok e1 -> encoder_new f2 = Ok e2 -> eruns ev1 e1 o EFinished -> eruns ev2 e2 o EFinished -> len o < UINT64_MAX - 16 ->
  ev_ff ev1 = ev_ff ev2 /\ forall t1 t2, stores ev1 [] f1 t1 -> stores ev2 [] f2 t2 -> t1 = t2.
Proof.
  intros ev1 ev2 f1 f2 e1 e2 o C1 C2 Q1 Q2 St1 St2 D1 D2 H1 H2 R1 R2 L.
  assert (Hd : exists d, decoder_new 0x4000 = Ok d) by (vm_compute; eauto). destruct Hd as [d Hd].
  destruct (drun_total envx 0x4000 d o Hd) as (ob & r & Rd & _).
  destruct (archive_shown envx ev1 f1 e1 o 0x4000 d ob r C1 Q1 St1 D1 H1 R1 L (or_introl eq_refl) eq_refl Hd Rd) as (_ & t1' & S1' & A1 & T1 & E1).
  destruct (archive_shown envx ev2 f2 e2 o 0x4000 d ob r C2 Q2 St2 D2 H2 R2 L (or_introl eq_refl) eq_refl Hd Rd) as (_ & t2' & S2' & A2 & T2 & E2).
  split; [rewrite <- (arch_flags _ _ _ C1 A1), <- (arch_flags _ _ _ C2 A2); reflexivity|]. intros t1 t2 S1 S2.
  rewrite (stores_unique ev1 _ _ _ _ _ (Nat.lt_succ_diag_r _) St1 S1 S1'), (stores_unique ev2 _ _ _ _ _ (Nat.lt_succ_diag_r _) St2 S2 S2').
  rewrite E1 in E2. refine (proj1 (obs_unique _ _ _ t1' (Nat.lt_succ_diag_r _) [] t2' [] [] T1 T2 _)). rewrite !app_nil_r. exact E2.
Qed.
Print Assumptions encoding_injective_partial.

(** * A case *)
Lemma encode_runs ev f e o x : encoder_new f = Ok e -> encode ev f = (o, Ok x) -> eruns ev e o EFinished.
Proof.
  intros H E. destruct (encoding_terminates ev f e H) as (o' & r & R). pose proof (new_runs ev f e o' r H R) as [(m & M1 & M2) M3].
  rewrite E in M1, M3. cbn [fst snd] in M1, M3. subst r. rewrite (M2 eq_refl), app_nil_r in M1. subst o'. exact R.
Qed.

Definition flags_of (flags : N) : N * N := match encoder_set_feature_flags flags with Ok x => x | _ => (0, 0) end.
(** An encoder with these feature flags on a machine with these users. *)
Definition env_of (flags : N) (names : N -> option (list N)) : eenv :=
  mkEenv (fst (flags_of flags)) (snd (flags_of flags)) 0 0 names names (fun n => rd64 (n ++ repeat 0 8)) (fun _ _ _ => false) isort.
Lemma env_of_configured flags names : match encoder_set_feature_flags flags with Ok _ => True | _ => False end -> configured (env_of flags names).
Proof.
  intros H. exists flags. cbn [env_of ev_ff ev_gran]. unfold flags_of. destruct (encoder_set_feature_flags flags) as [[a b]| | |]; try contradiction. reflexivity.
Qed.

Definition joe : list N := [106; 111; 101].
Definition users (u : N) : option (list N) := if u =? 1000 then Some joe else None.
Definition rt_flags : N := bor [WITH_32BIT_UIDS; WITH_USER_NAMES; WITH_SEC_TIME; WITH_SYMLINKS; WITH_XATTRS; WITH_ACL].
Definition rt_env : eenv := env_of rt_flags users.
Definition acl1 : list raw_acl :=
  [mkRawAcl T_USER_OBJ 0 true true false; mkRawAcl T_USER 1000 true false false; mkRawAcl T_GROUP_OBJ 0 true false false;
   mkRawAcl T_MASK 0 true false false; mkRawAcl T_OTHER 0 false false false].
Definition rt_stat (mode uid : N) (sec nsec : Z) (xs : list (list N * list N)) (acl : list raw_acl) : fstat :=
  mkFstat mode uid 1000 sec nsec false None 0 0 false false None xs acl [] 0.
Definition rt_tree : fnode := FDir (rt_stat 0x41ED 0 5 7 [(n_uy, [1]); (n_ux, [2])] [])
  [([98], FReg (rt_stat 0x81A4 1000 6 8 [] acl1) 3 [7; 8; 9; 10]); ([97], FDir (rt_stat 0x41ED 1001 0 0 [] []) [([97], FOther (rt_stat 0x11A4 0 9 9 [] []))]);
   ([99], FLnk (rt_stat 0xA1FF 0 1 1 [] []) [98])].

Lemma joe_ok : is_user_name joe.
Proof. split; [discriminate|]. split; [left; vm_compute; split; discriminate|]. split; [|split; vm_compute; discriminate].
  apply Forall_cons; [left; left; vm_compute; split; discriminate|]. apply Forall_cons; [left; left; vm_compute; split; discriminate|apply Forall_nil]. Qed.
Lemma users_ok u : name_ok rt_env users u.
Proof.
  intros _ _. split; [|vm_compute; discriminate]. intros n. unfold users. destruct (u =? 1000); [|discriminate]. intros [= <-]. exact joe_ok.
Qed.
Lemma acl0_ok : acl_ok rt_env [].
Proof.
  constructor.
  1-4: intros ? ? [].
  - congruence.
  - intros [(? & [] & _) | (? & [] & _)].
  - apply NoDup_nil.
  - apply NoDup_nil.
  - intros ? [].
  - intros ? [].
Qed.
Ltac tags := repeat match goal with H : _ \/ _ |- _ => destruct H end; subst; try contradiction; cbn [ra_tag] in *; try discriminate; try reflexivity.
Lemma acl1_ok : acl_ok rt_env acl1.
Proof.
  constructor.
  1-4: intros r r' H H' E E'; cbn in H, H'; tags.
  - intros _. split; [|split]; [exists (mkRawAcl T_USER_OBJ 0 true true false)|exists (mkRawAcl T_GROUP_OBJ 0 true false false)|exists (mkRawAcl T_OTHER 0 false false false)];
      (split; [cbn; auto 9|reflexivity]).
  - intros _. exists (mkRawAcl T_MASK 0 true false false). split; [cbn; auto 9|reflexivity].
  - constructor; [intros []|constructor].
  - constructor.
  - intros r H E. cbn in H. tags. split; [vm_compute; reflexivity|apply users_ok].
  - intros r H E. cbn in H. tags.
Qed.
Lemma rt_stat_ok mode uid sec nsec xs acl : mode < 65536 -> uid < two32 -> (0 <= sec < 1000)%Z -> (0 <= nsec < 1000000000)%Z ->
  NoDup (map fst xs) -> Forall (fun x => ~ In 0 (fst x) /\ len (snd x) <= 65536) xs -> acl_ok rt_env acl ->
  stat_ok rt_env (rt_stat mode uid sec nsec xs acl).
Proof.
  intros H1 H2 H3 H4 H5 H6 H7. constructor; cbn [rt_stat st_mode st_uid st_gid st_sec st_nsec fs_xattrs fs_selinux fs_acl fs_default_acl fs_projid nanoseconds]; auto.
  - vm_compute. reflexivity.
  - unfold nanoseconds. cbn. lia.
  - intros X. vm_compute in X. discriminate.
  - apply users_ok.
  - apply users_ok.
  - intros _ X. vm_compute in X. discriminate.
  - discriminate.
  - exact acl0_ok.
  - vm_compute. reflexivity.
Qed.
Ltac nodup := repeat constructor; cbn; intuition discriminate.
Lemma rt_storable : storable rt_env [] rt_tree.
Proof.
  assert (So : forall mode uid sec nsec, mode < 65536 -> uid < two32 -> (0 <= sec < 1000)%Z -> (0 <= nsec < 1000000000)%Z ->
     stat_ok rt_env (rt_stat mode uid sec nsec [] [])).
  { intros. apply rt_stat_ok; auto using acl0_ok; constructor. }
  assert (Cm : forall n, n = 97 \/ n = 98 \/ n = 99 -> is_component [n]).
  { intros n H. split; [discriminate|]. cbn. repeat split; intuition (subst; discriminate). }
  apply storable_dir; [|reflexivity|nodup|].
  - apply rt_stat_ok; try (vm_compute; repeat split; congruence); [nodup| |exact acl0_ok].
    repeat constructor; cbn; try (intros X; repeat (destruct X as [X | X]; [discriminate|]); exact X); vm_compute; discriminate.
  - intros e He _. cbn in He. destruct He as [<- | [<- | [<- | []]]]; (split; [apply Cm; tauto|]); cbn [fst snd app].
    + apply storable_reg; [|reflexivity]. apply rt_stat_ok; auto using acl1_ok; try (vm_compute; repeat split; congruence); constructor.
    + apply storable_dir; [apply So; vm_compute; repeat split; congruence|reflexivity|nodup|].
      intros e He _. cbn in He. destruct He as [<- | []]. split; [apply Cm; tauto|]. cbn [fst snd].
      apply storable_other; [apply So; vm_compute; repeat split; congruence|reflexivity].
    + apply storable_lnk; [apply So; vm_compute; repeat split; congruence|reflexivity|discriminate|intros [X | []]; discriminate|vm_compute; discriminate].
Qed.

Definition rt_bytes : list N := fst (encode rt_env rt_tree).
Definition rt_obs : list obs := fst (decode envx 0x4000 rt_bytes).
(** The FIFO isn't selected by the feature flags. *)
Definition rt_meta (mode uid sec : N) (user : option (list N)) xs au go : meta :=
  mkMeta mode 0 uid 1000 (sec * 1000000000) user (Some joe) xs au [] go UINT64_MAX UINT64_MAX UINT64_MAX UINT64_MAX [] [] None None None.
Definition rt_stored : tree :=
  TDir (rt_meta 0x41ED 0 5 None [(n_ux, [2]); (n_uy, [1])] [] UINT64_MAX)
    [([97], TDir (rt_meta 0x41ED 1001 0 None [] [] UINT64_MAX) []);
     ([98], TReg (rt_meta 0x81A4 1000 6 (Some joe) [] [mkAclEnt 1000 (Some joe) 4] 4) [7; 8; 9]);
     ([99], TLnk (rt_meta 0xA1FF 0 1 None [] [] UINT64_MAX) [98])].
Example round_trip_case :
  exists e d, configured rt_env /\ qsort_ok (ev_qsort rt_env) /\ storable rt_env [] rt_tree /\ S_ISDIR (f_mode rt_tree) = true /\
    encoder_new rt_tree = Ok e /\ eruns rt_env e rt_bytes EFinished /\ len rt_bytes < UINT64_MAX - 16 /\ decoder_new 0x4000 = Ok d /\
    drun envx d rt_bytes (tree_obs [] rt_stored) (Finished []).
Proof.
  destruct (encoder_new rt_tree) as [e| | |] eqn:H; try discriminate.
  destruct (decode_drun envx 0x4000 rt_bytes (tree_obs [] rt_stored) (Finished [])) as (d & Hd & R); [vm_compute; reflexivity|].
  exists e, d. split; [apply env_of_configured; vm_compute; exact I|]. split; [exact isort_ok|]. split; [exact rt_storable|]. split; [reflexivity|].
  split; [reflexivity|]. split; [|split; [vm_compute; reflexivity|split; [exact Hd|exact R]]].
  assert (E : snd (encode rt_env rt_tree) = Ok (match snd (encode rt_env rt_tree) with Ok x => x | _ => (0, ecache0) end)) by (vm_compute; reflexivity).
  unfold rt_bytes. eapply encode_runs; [exact H|]. rewrite <- E. apply surjective_pairing.
Qed.

(** * C18 does not hold for all trees *)
(** An ordinary file tree that is encoded successfully although its archive can't be decoded. *)
Definition not_decodable (ev : eenv) (f : fnode) : Prop :=
  exists e o d, configured ev /\ qsort_ok (ev_qsort ev) /\ distinct_names f /\ S_ISDIR (f_mode f) = true /\
    encoder_new f = Ok e /\ eruns ev e o EFinished /\ decoder_new 0x4000 = Ok d /\
    forall ob r, drun envx d o ob r -> exists er, r = Failed er.
Definition fails_b (ev : eenv) (f : fnode) : bool :=
  match encode ev f with
  | (o, Ok _) => match decode envx 0x4000 o with (_, Some (Failed _)) => true | _ => false end
  | _ => false
  end.
Lemma fails_ok flags names f : match encoder_set_feature_flags flags with Ok _ => True | _ => False end ->
  distinct_names f -> S_ISDIR (f_mode f) = true -> fails_b (env_of flags names) f = true -> not_decodable (env_of flags names) f.
Proof.
  intros H1 H2 H3 H4. unfold fails_b in H4.
  destruct (encoder_new f) as [e| | |] eqn:He; try (exfalso; unfold encoder_new in He; rewrite H3, andb_false_r in He; discriminate).
  destruct (encode (env_of flags names) f) as [o [x| | |]] eqn:E; try discriminate.
  destruct (decode envx 0x4000 o) as [ob [[| er | |]|]] eqn:D; try discriminate.
  destruct (decode_drun envx 0x4000 o ob (Failed er) D) as (d & Hd & R).
  exists e, o, d. split; [apply env_of_configured, H1|]. split; [exact isort_ok|]. split; [exact H2|]. split; [exact H3|]. split; [exact He|].
  split; [eapply encode_runs; eassumption|]. split; [exact Hd|]. intros ob' r' R'. destruct (drun_det _ _ _ _ _ _ _ _ Hd R R') as [_ <-]. eauto.
Qed.
Definition one_dir (uid : N) (sec nsec : Z) : fnode := FDir (rt_stat 0x41ED uid sec nsec [] []) [].
Lemma one_dir_names uid sec nsec : distinct_names (one_dir uid sec nsec).
Proof. apply dn_dir; constructor. Qed.

(** Microsecond time stamps: the decoder takes only whole milliseconds (cadecoder.c validate_nsec), so hardly any time stamp works. *)
Theorem round_trip_usec_refuted : not_decodable (env_of WITH_USEC_TIME (fun _ => None)) (one_dir 0 1 1000).
Proof. apply fails_ok; [exact I|apply one_dir_names|reflexivity|vm_compute; reflexivity]. Qed.
Print Assumptions round_trip_usec_refuted.
(** A user name with a dot. *)
Theorem round_trip_user_name_refuted :
  not_decodable (env_of (N.lor WITH_32BIT_UIDS WITH_USER_NAMES) (fun _ => Some [97; 46; 98])) (one_dir 1000 1 0).
Proof. apply fails_ok; [exact I|apply one_dir_names|reflexivity|vm_compute; reflexivity]. Qed.
Print Assumptions round_trip_user_name_refuted.
(** Names only, and a file of the superuser. *)
Theorem round_trip_root_refuted : not_decodable (env_of WITH_USER_NAMES users) (one_dir 0 1 0).
Proof. apply fails_ok; [exact I|apply one_dir_names|reflexivity|vm_compute; reflexivity]. Qed.
Print Assumptions round_trip_root_refuted.
(** Names only, and a user without one: the number is stored as name, which the decoder rejects. *)
Theorem round_trip_no_name_refuted : not_decodable (env_of WITH_USER_NAMES users) (one_dir 1001 1 0).
Proof. apply fails_ok; [exact I|apply one_dir_names|reflexivity|vm_compute; reflexivity]. Qed.
Print Assumptions round_trip_no_name_refuted.

(** C18, C20. A file of ten seconds before 1970 is stored as if it was of the year 2554: it has the archive of such a
    file. *)
Definition old_env := env_of WITH_SEC_TIME (fun _ => None).
Theorem encoding_injective_refuted :
  exists e1 e2 o, configured old_env /\ qsort_ok (ev_qsort old_env) /\ distinct_names (one_dir 0 (-10) 0) /\ distinct_names (one_dir 0 18446744063 0) /\
    encoder_new (one_dir 0 (-10) 0) = Ok e1 /\ encoder_new (one_dir 0 18446744063 0) = Ok e2 /\ eruns old_env e1 o EFinished /\ eruns old_env e2 o EFinished.
Proof.
  destruct (encoder_new (one_dir 0 (-10) 0)) as [e1| | |] eqn:H1; try discriminate.
  destruct (encoder_new (one_dir 0 18446744063 0)) as [e2| | |] eqn:H2; try discriminate.
  set (f1 := one_dir 0 (-10) 0) in *. set (f2 := one_dir 0 18446744063 0) in *.
  exists e1, e2, (fst (encode old_env f1)). split; [apply env_of_configured; exact I|]. split; [exact isort_ok|]. split; [apply one_dir_names|].
  split; [apply one_dir_names|]. split; [reflexivity|]. split; [reflexivity|].
  assert (E1 : snd (encode old_env f1) = Ok (104, ecache0)) by (vm_compute; reflexivity).
  assert (E2 : encode old_env f2 = (fst (encode old_env f1), Ok (104, ecache0))) by (vm_compute; reflexivity).
  split; [|eapply encode_runs; eassumption]. eapply encode_runs; [exact H1|]. rewrite <- E1. apply surjective_pairing.
Qed.
Print Assumptions encoding_injective_refuted.
