(** The meta data the encoder writes is what is to be stored. *)
From Coq Require Import Sorted Permutation.
From Verif Require Import Base FeatureFlags FeatureFlagsSpec FeatureFlagsProofs FeatureFlagsProofs2 ArchiveBase Bst DecoderSpec DecoderProofs5
  Decoder Encoder EncoderSpec EncoderProofs EncoderProofs3 ArchiveSpec RoundTrip1 RoundTrip2 RoundTrip3.
Local Open Scope N_scope.

Section Meta.
Variable ev : eenv.
Let ff := ev_ff ev.

Record ff_fine : Prop := mkFfFine {
  fn_known : only_known_bits ff;
  fn_norm : anb (N.testbit ff) = true;
  fn_gran : ev_gran ev = match m_granule (meaning_of ff) with Some g => g | None => UINT64_MAX end }.
Lemma configured_fine : configured ev -> ff_fine.
Proof.
  intros (flags & H). apply encoder_set_bits in H as [H1 H2]. change (ev_ff ev) with ff in H1, H2. destruct (normalize_Ok _ _ H1) as (K1 & K2 & K3). constructor.
  - exact K2.
  - rewrite <- (anb_normb (N.testbit flags)). unfold anb. rewrite !K3. reflexivity.
  - rewrite H2. unfold meaning_of. cbn [m_granule]. destruct (N.testbit ff 5), (N.testbit ff 4), (N.testbit ff 3), (N.testbit ff 6); reflexivity.
Qed.

(** ** Mode *)
Lemma lor_add a b : N.land a b = 0 -> N.lor a b = a + b.
Proof. intros H. rewrite N.add_nocarry_lxor by exact H. apply N.bits_inj. intros k.
  rewrite N.lor_spec, N.lxor_spec. assert (Z : N.testbit (N.land a b) k = false) by (rewrite H; apply N.bits_0).
  rewrite N.land_spec in Z. destruct (N.testbit a k), (N.testbit b k); auto; discriminate.
Qed.
Lemma type_low m p : p < 4096 -> N.land (N.land m S_IFMT) p = 0.
Proof.
  intros H. rewrite <- N.land_assoc. replace (N.land S_IFMT p) with 0; [apply N.land_0_r|]. symmetry.
  apply N.bits_inj. intros k. rewrite N.bits_0, N.land_spec. destruct (N.ltb_spec k 12) as [L | L].
  - assert (C : k = 0 \/ k = 1 \/ k = 2 \/ k = 3 \/ k = 4 \/ k = 5 \/ k = 6 \/ k = 7 \/ k = 8 \/ k = 9 \/ k = 10 \/ k = 11) by lia.
    repeat (destruct C as [-> | C]; [reflexivity|]). subst k. reflexivity.
  - destruct (N.eqb_spec p 0) as [-> | Z]; [rewrite N.bits_0; apply andb_false_r|].
    rewrite (N.bits_above_log2 p k); [apply andb_false_r|]. apply N.log2_lt_pow2; [lia|]. apply N.lt_le_trans with (2 ^ 12); [exact H|].
    apply N.pow_le_mono_r; lia.
Qed.
Lemma land_low m : N.land m 0xFFF < 4096.
Proof. change 0xFFF with (N.ones 12). rewrite N.land_ones. apply N.mod_lt. discriminate. Qed.
Lemma stored_perms_low m : stored_perms ev m < 4096.
Proof.
  unfold stored_perms. destruct (S_ISLNK m); [lia|]. destruct (_ || _)%bool; [apply land_low|]. destruct (_ && _)%bool; destruct (S_ISDIR m); lia.
Qed.
Lemma mode_ok m : fixup_mode ev m = N.land m S_IFMT + stored_perms ev m.
Proof.
  rewrite <- lor_add by apply type_low, stored_perms_low. unfold fixup_mode, stored_perms. fold ff.
  destruct (S_ISLNK m) eqn:L.
  - unfold S_ISLNK, is_type in L. apply N.eqb_eq in L. rewrite L. reflexivity.
  - rewrite has_lor. destruct (has ff WITH_PERMISSIONS || has ff WITH_ACL)%bool; [apply N.land_lor_distr_r|].
    f_equal. unfold has at 2. destruct (has ff WITH_READ_ONLY); [|reflexivity]. cbn [andb]. destruct (N.land m 0x92 =? 0); reflexivity.
Qed.
Lemma land_type_mode m p : p < 4096 -> N.land (N.land m S_IFMT + p) S_IFMT = N.land m S_IFMT.
Proof.
  intros H. rewrite <- lor_add by (apply type_low, H). rewrite N.land_lor_distr_l, <- N.land_assoc. change (N.land S_IFMT S_IFMT) with S_IFMT.
  rewrite (N.land_comm p). replace (N.land S_IFMT p) with 0; [apply N.lor_0_r|]. symmetry.
  replace S_IFMT with (N.land S_IFMT S_IFMT) at 1 by reflexivity. apply type_low, H.
Qed.
Lemma type_fixup m t : is_type (fixup_mode ev m) t = is_type m t.
Proof. unfold is_type. rewrite mode_ok, land_type_mode by apply stored_perms_low. reflexivity. Qed.
Lemma perms_fixup m : N.land (fixup_mode ev m) 0xFFF = stored_perms ev m.
Proof.
  rewrite mode_ok, <- lor_add by apply type_low, stored_perms_low. rewrite N.land_lor_distr_l, type_low by lia. rewrite N.lor_0_l.
  change 0xFFF with (N.ones 12). rewrite N.land_ones. apply N.mod_small. apply stored_perms_low.
Qed.
Lemma fixup_small m : fixup_mode ev m < 65536.
Proof.
  rewrite mode_ok. assert (N.land m S_IFMT <= S_IFMT) by (apply N.ldiff_le; apply N.bits_inj; intros k; rewrite N.ldiff_spec, N.land_spec, N.bits_0; destruct (N.testbit S_IFMT k), (N.testbit m k); reflexivity).
  pose proof (stored_perms_low m). unfold S_IFMT in *. lia.
Qed.

(** ** Attributes *)
Lemma chattr_mask k : N.testbit WITH_CHATTR k = existsb (fun p => fst p =? k) chattr_exps.
Proof. change WITH_CHATTR with (bor (map (fun a => 2 ^ a) (map fst chattr_exps))). rewrite bor_pow_bits. reflexivity. Qed.
Lemma fat_mask k : N.testbit WITH_FAT_ATTRS k = existsb (fun p => fst p =? k) fat_exps.
Proof. change WITH_FAT_ATTRS with (bor (map (fun a => 2 ^ a) (map fst fat_exps))). rewrite bor_pow_bits. reflexivity. Qed.

Lemma masked_bits (l : list (N * N)) mask attrs (c : bool) k :
  (forall k, N.testbit mask k = existsb (fun p => fst p =? k) l) ->
  (N.testbit (if c && has ff mask then N.land (map_from (pw l) attrs) ff else 0) k = true <->
   c = true /\ N.testbit ff k = true /\ exists j, In (k, j) l /\ N.testbit attrs j = true).
Proof.
  intros M. split.
  - destruct (c && has ff mask)%bool eqn:C; [|rewrite N.bits_0; discriminate]. apply andb_true_iff in C as [-> C].
    rewrite N.land_spec, map_from_bits. intros H. apply andb_true_iff in H as [H1 H2]. split; [reflexivity|]. split; [exact H2|].
    apply existsb_exists in H1 as ([a b] & I & H1). apply andb_true_iff in H1 as [H1 H3]. cbn in H1, H3. apply N.eqb_eq in H3. subst a. eauto.
  - intros (-> & H & j & I & J). 
    assert (E : existsb (fun p => fst p =? k) l = true) by (apply existsb_exists; exists (k, j); split; [exact I|apply N.eqb_refl]).
    assert (C : has ff mask = true) by (apply has_bits; exists k; rewrite M; auto).
    rewrite C. cbn [andb]. rewrite N.land_spec, map_from_bits, H. rewrite andb_true_r. apply existsb_exists. exists (k, j). cbn. rewrite J, N.eqb_refl. auto.
Qed.

Lemma flags_ok (F : ff_fine) s k : N.testbit (entry_flags ev s) k = true <-> N.testbit ff k = true /\ has_attribute s k.
Proof.
  unfold entry_flags. fold ff. cbv zeta. rewrite !N.lor_spec. rewrite !orb_true_iff.
  assert (A1 := masked_bits chattr_exps WITH_CHATTR (fs_chattr s) (S_ISDIR (st_mode s) || S_ISREG (st_mode s)) k chattr_mask).
  assert (A2 := masked_bits fat_exps WITH_FAT_ATTRS (fs_fat s) (S_ISDIR (st_mode s) || S_ISREG (st_mode s)) k fat_mask).
  change (pw chattr_exps) with chattr_map in A1. change (pw fat_exps) with fat_attrs_map in A2.
  unfold feature_flags_from_chattr, feature_flags_from_fat_attrs.
  rewrite A1, A2. clear A1 A2.
  assert (A3 : N.testbit (if S_ISDIR (st_mode s) && has ff WITH_SUBVOLUME
      then N.land (N.lor (if fs_subvol s then WITH_SUBVOLUME else 0) (if fs_subvol_ro s then WITH_SUBVOLUME_RO else 0)) ff else 0) k = true <->
    N.testbit ff k = true /\ S_ISDIR (st_mode s) = true /\ (k = 26 /\ fs_subvol s = true \/ k = 27 /\ fs_subvol_ro s = true)).
  { assert (B : forall (c : bool) j, N.testbit (if c then 2 ^ j else 0) k = (c && (j =? k))%bool).
    { intros c j. destruct c; [apply N.pow2_bits_eqb|apply N.bits_0]. }
    change WITH_SUBVOLUME with (2 ^ 26). change WITH_SUBVOLUME_RO with (2 ^ 27).
    split.
    - destruct (S_ISDIR (st_mode s) && has ff (2 ^ 26))%bool eqn:C; [|rewrite N.bits_0; discriminate]. apply andb_true_iff in C as [C1 C2].
      rewrite N.land_spec, N.lor_spec, !B, andb_true_iff, orb_true_iff, !andb_true_iff, !N.eqb_eq. intuition congruence.
    - intros (H & -> & D). cbn [andb].
      assert (C : has ff (2 ^ 26) = true).
      { rewrite has_pow. destruct D as [[-> _] | [-> _]]; [exact H|].
        pose proof (fn_norm F) as A. unfold anb in A. rewrite !andb_true_iff in A. destruct A as [_ A]. rewrite H in A. cbn in A.
        destruct (N.testbit ff 26); auto. }
      rewrite C, N.land_spec, N.lor_spec, !B, H, andb_true_r, orb_true_iff, !andb_true_iff, !N.eqb_eq. intuition congruence. }
  rewrite A3. clear A3. unfold has_attribute. change chattr_bits with chattr_exps. change fat_bits with fat_exps.
  rewrite orb_true_iff. firstorder.
Qed.

(** ** Time *)
Lemma nsec_ok s : stat_ok ev s -> timespec_to_nsec (st_sec s) (st_nsec s) = Z.to_N (nanoseconds s) /\ Z.to_N (nanoseconds s) < UINT64_MAX.
Proof.
  intros S. pose proof (so_time _ _ S) as T. pose proof (so_nsec _ _ S) as Ns. unfold nanoseconds in *. unfold UINT64_MAX.
  split; [|lia]. unfold timespec_to_nsec, u64, two64.
  replace ((st_sec s =? -1) && (st_nsec s =? -1))%Z%bool with false by lia.
  rewrite (Z.mod_small (st_sec s)) by lia. rewrite (Z.mod_small (st_nsec s)) by lia.
  rewrite (N.mod_small (Z.to_N (st_sec s) * 1000000000)) by lia. rewrite N.mod_small by lia. lia.
Qed.

Lemma granule_pos g : m_granule (meaning_of ff) = Some g -> 0 < g.
Proof.
  unfold meaning_of. cbn [m_granule]. destruct (N.testbit ff 5), (N.testbit ff 4), (N.testbit ff 3), (N.testbit ff 6); intros [= <-]; lia.
Qed.

Lemma time_ok (F : ff_fine) s : stat_ok ev s -> stored_time ev s (encoder_fixup_mtime (ev_gran ev) (timespec_to_nsec (st_sec s) (st_nsec s))).
Proof.
  intros S. destruct (nsec_ok s S) as [-> L]. pose proof (so_time _ _ S) as T. unfold stored_time. fold ff. rewrite (fn_gran F).
  destruct (m_granule (meaning_of ff)) as [g|] eqn:G; [|reflexivity].
  pose proof (granule_pos g G) as Hg. unfold encoder_fixup_mtime.
  destruct (N.eqb_spec g UINT64_MAX) as [E | E].
  { exfalso. revert G E. unfold meaning_of. cbn [m_granule]. destruct (N.testbit ff 5), (N.testbit ff 4), (N.testbit ff 3), (N.testbit ff 6); intros [= <-]; discriminate. }
  destruct (round_bounds g (Z.to_N (nanoseconds s)) Hg) as (A & B & C). split; [exact C|].
  set (x := Z.to_N (nanoseconds s) / g * g) in *. clearbody x. lia.
Qed.

Lemma time_valid (F : ff_fine) s t : stat_ok ev s -> stored_time ev s t -> validate_nsec ff t = true /\ t < two64.
Proof.
  intros S H. pose proof (so_time _ _ S) as T. unfold stored_time in H. fold ff in H. rewrite validate_nsec_bits. unfold two64, UINT64_MAX.
  assert (L : t < 18446744073709551615) by (destruct (m_granule (meaning_of ff)) as [g|]; [destruct H; lia|lia]).
  split; [|lia]. apply andb_true_iff. split; [apply negb_true_iff, N.eqb_neq; lia|].
  revert H. unfold meaning_of. cbn [m_granule]. destruct (N.testbit ff 5); [reflexivity|]. destruct (N.testbit ff 4) eqn:U.
  - intros (A & B). apply N.eqb_eq. assert (Q := so_usec _ _ S). rewrite <- (has_lit ff WITH_USEC_TIME 4 eq_refl) in U. specialize (Q U).
    assert (E : (nanoseconds s / 1000 = Z.of_N (t / 1000))%Z).
    { rewrite N2Z.inj_div. symmetry. apply Z.div_unique with (nanoseconds s - Z.of_N t)%Z; [lia|].
      assert (Z.of_N t = 1000 * (Z.of_N t / Z.of_N 1000))%Z; [|lia]. pose proof (N.div_mod t 1000 ltac:(lia)). rewrite A in H.
      rewrite <- N2Z.inj_div. lia. }
    rewrite E in Q. assert (Q2 : (t / 1000) mod 1000 = 0) by lia.
    pose proof (N.div_mod t 1000 ltac:(lia)) as D1. pose proof (N.div_mod (t / 1000) 1000 ltac:(lia)) as D2. rewrite A in D1. rewrite Q2 in D2.
    rewrite D1, D2. replace (1000 * (1000 * (t / 1000 / 1000) + 0) + 0) with (t / 1000 / 1000 * 1000000) by lia. apply N.mod_mul. discriminate.
  - destruct (N.testbit ff 3); [intros (A & _); apply N.eqb_eq; exact A|]. destruct (N.testbit ff 6); [intros (A & _); apply N.eqb_eq; exact A|].
    intros ->. reflexivity.
Qed.

(** ** Ids and names *)
Lemma valid_uid u : u < two32 -> uid_is_valid u = true -> u < UINT32_MAX /\ u <> UINT16_MAX.
Proof. unfold uid_is_valid, UINT32_MAX, UINT16_MAX, two32. lia. Qed.
Lemma shift_ok u : uid_is_valid (shift_uid ev u) = true -> shift_uid ev u = shifted ev u.
Proof.
  unfold shift_uid, shifted. destruct (negb (uid_is_valid u)); [discriminate|]. destruct (u <? ev_shift ev); [discriminate|]. cbv zeta.
  destruct (ev_range ev =? 0); reflexivity.
Qed.
Lemma shifted_le u : shifted ev u <= u.
Proof. unfold shifted. destruct (N.eqb_spec (ev_range ev) 0); [lia|]. pose proof (N.mod_le (u - ev_shift ev) (ev_range ev) ltac:(assumption)). lia. Qed.

Lemma has_uids : has ff UIDS = (has ff WITH_16BIT_UIDS || has ff WITH_32BIT_UIDS)%bool.
Proof. apply has_lor. Qed.


Lemma id_valid u : u < two32 ->
  (has ff UIDS = true -> uid_is_valid (shift_uid ev u) = true /\ (has ff WITH_16BIT_UIDS && (UINT16_MAX <? shift_uid ev u))%bool = false) ->
  validate_uid_gid ff (stored_id ev u) = true /\ is_id (stored_id ev u).
Proof.
  intros L H. unfold stored_id. change (ev_ff ev) with ff. unfold validate_uid_gid, is_id. rewrite has_uids in *.
  destruct (has ff WITH_16BIT_UIDS || has ff WITH_32BIT_UIDS)%bool eqn:U.
  - destruct (H eq_refl) as [V W]. pose proof V as V2. apply shift_ok in V2. rewrite V2 in *. pose proof (shifted_le u) as L2.
    apply valid_uid in V; [|lia]. destruct V as [V1 V3]. split; [|lia].
    destruct (has ff WITH_16BIT_UIDS).
    + cbn [andb] in W. apply N.ltb_ge in W. apply N.ltb_lt. lia.
    + cbn [orb] in U. rewrite U. apply andb_true_iff. split; [apply N.ltb_lt; exact V1|apply negb_true_iff, N.eqb_neq; exact V3].
  - apply orb_false_iff in U as [-> ->]. split; [reflexivity|]. unfold UINT32_MAX, UINT16_MAX. lia.
Qed.

Lemma ids_ok s u g : stat_ok ev s -> entry_ids ev s = Ok (u, g) ->
  (u = stored_id ev (st_uid s) /\ g = stored_id ev (st_gid s)) /\
  (validate_uid_gid ff u = true /\ is_id u) /\ (validate_uid_gid ff g = true /\ is_id g).
Proof.
  intros S H.
  assert (E : (u = stored_id ev (st_uid s) /\ g = stored_id ev (st_gid s)) /\
    (has ff UIDS = true -> (uid_is_valid (shift_uid ev (st_uid s)) = true /\ (has ff WITH_16BIT_UIDS && (UINT16_MAX <? shift_uid ev (st_uid s)))%bool = false) /\
       (uid_is_valid (shift_uid ev (st_gid s)) = true /\ (has ff WITH_16BIT_UIDS && (UINT16_MAX <? shift_uid ev (st_gid s)))%bool = false))).
  { revert H. unfold entry_ids, stored_id. change (ev_ff ev) with ff. destruct (has ff UIDS); [|intros [= <- <-]; split; [auto|discriminate]].
    cbv zeta. destruct (uid_is_valid (shift_uid ev (st_uid s))) eqn:V1; cbn [negb]; [|discriminate].
    destruct (uid_is_valid (shift_uid ev (st_gid s))) eqn:V2; cbn [negb]; [|discriminate].
    destruct (_ && _)%bool eqn:V3; [discriminate|]. intros [= <- <-]. split; [split; apply shift_ok; assumption|].
    intros _. destruct (has ff WITH_16BIT_UIDS); cbn [andb] in *; [apply orb_false_iff in V3 as [V3 V4]|]; auto. }
  destruct E as [[-> ->] E]. split; [auto|].
  split; apply id_valid; try apply S; intros U; apply (E U).
Qed.

Lemma name_of lookup (check : bool) u o : has ff WITH_USER_NAMES = true -> name_ok ev lookup u -> id_to_name ev lookup check u = Ok o ->
  o = stored_name ev lookup u.
Proof.
  intros U Nm. unfold id_to_name, stored_name. change (ev_ff ev) with ff. rewrite U. cbn [andb]. destruct (_ && _)%bool; [discriminate|].
  destruct (N.eqb_spec u 0) as [-> | Z]; [intros [= <-]; reflexivity|]. cbn [negb]. destruct (Nm U Z) as [_ Nm2].
  destruct (lookup u) as [n|]; [intros [= <-]; reflexivity|]. change (ev_ff ev) with ff in Nm2. destruct (has ff UIDS); [intros [= <-]; reflexivity|].
  exfalso. apply Nm2; reflexivity.
Qed.
Lemma stored_name_ok lookup u n : name_ok ev lookup u -> stored_name ev lookup u = Some n -> is_user_name n /\ has ff WITH_USER_NAMES = true.
Proof.
  intros Nm. unfold stored_name. change (ev_ff ev) with ff. destruct (has ff WITH_USER_NAMES) eqn:U; [|discriminate]. cbn [andb].
  destruct (N.eqb_spec u 0) as [-> | Z]; [discriminate|]. cbn [negb]. intros H. split; [|reflexivity]. apply (Nm U Z). exact H.
Qed.

(** ** The cache of names *)
Definition cache_ok (c : ecache) : Prop :=
  (has ff WITH_USER_NAMES = false -> ec_uname c = None /\ ec_gname c = None) /\
  (forall n, ec_uname c = Some n -> uid_to_name ev (ec_uid c) = Ok (Some n)) /\
  (forall n, ec_gname c = Some n -> gid_to_name ev (ec_gid c) = Ok (Some n)).
Lemma cache0_ok : cache_ok ecache0.
Proof. split; [auto|]. split; discriminate. Qed.

Lemma read_names_ok c s c' : cache_ok c -> stat_ok ev s -> read_names ev c s = Ok c' ->
  cache_ok c' /\ (if st_uid s =? ec_uid c' then ec_uname c' else None) = stored_name ev (ev_pw ev) (st_uid s) /\
  (if st_gid s =? ec_gid c' then ec_gname c' else None) = stored_name ev (ev_gr ev) (st_gid s).
Proof.
  intros (C1 & C2 & C3) S. unfold read_names. change (ev_ff ev) with ff. destruct (has ff WITH_USER_NAMES) eqn:U; cbn [negb].
  2:{ intros [= <-]. split; [split; auto|]. destruct (C1 eq_refl) as [-> ->]. unfold stored_name. change (ev_ff ev) with ff. rewrite U.
      destruct (st_uid s =? ec_uid c), (st_gid s =? ec_gid c); auto. }
  destruct (st_mode s =? 0); [discriminate|]. intros H.
  set (X := match ec_uname c with Some _ => _ | None => _ end) in H.
  assert (HX : forall c1, X = Ok c1 -> ec_uid c1 = st_uid s /\ uid_to_name ev (st_uid s) = Ok (ec_uname c1) /\ ec_gid c1 = ec_gid c /\ ec_gname c1 = ec_gname c).
  { intros c1. unfold X.
    assert (Z : (let! n := uid_to_name ev (st_uid s) in Ok (mkEcache (st_uid s) n (ec_gid c) (ec_gname c))) = Ok c1 ->
      ec_uid c1 = st_uid s /\ uid_to_name ev (st_uid s) = Ok (ec_uname c1) /\ ec_gid c1 = ec_gid c /\ ec_gname c1 = ec_gname c).
    { destruct (uid_to_name ev (st_uid s)) as [n| | |]; cbn [bind]; try discriminate. intros [= <-]. auto. }
    destruct (ec_uname c) as [n|] eqn:En; [|exact Z]. destruct (N.eqb_spec (ec_uid c) (st_uid s)) as [E | E]; [|exact Z].
    intros [= <-]. rewrite <- E. rewrite En. auto. }
  destruct X as [c1| | |]; cbn [bind] in H; try discriminate. destruct (HX c1 eq_refl) as (U1 & U2 & U3 & U4). clear HX.
  assert (HY : ec_uid c' = ec_uid c1 /\ ec_uname c' = ec_uname c1 /\ ec_gid c' = st_gid s /\ gid_to_name ev (st_gid s) = Ok (ec_gname c')).
  { assert (Z : (let! n := gid_to_name ev (st_gid s) in Ok (mkEcache (ec_uid c1) (ec_uname c1) (st_gid s) n)) = Ok c' ->
      ec_uid c' = ec_uid c1 /\ ec_uname c' = ec_uname c1 /\ ec_gid c' = st_gid s /\ gid_to_name ev (st_gid s) = Ok (ec_gname c')).
    { destruct (gid_to_name ev (st_gid s)) as [n| | |]; cbn [bind]; try discriminate. intros [= <-]. auto. }
    revert H. destruct (ec_gname c1) as [n|] eqn:En; [|exact Z]. destruct (N.eqb_spec (ec_gid c1) (st_gid s)) as [E | E]; [|exact Z].
    intros [= <-]. rewrite <- E, En. split; [auto|]. split; [auto|]. split; [auto|]. rewrite U3. apply C3. auto. }
  destruct HY as (G1 & G2 & G3 & G4). rewrite G1, G2, G3, U1, !N.eqb_refl.
  split; [|split].
  - split; [congruence|]. rewrite G1, G2, G3, U1. split; intros n En; congruence.
  - eapply name_of; eauto. apply S.
  - eapply name_of; eauto. apply S.
Qed.

(** ** Extended attributes *)
Lemma prefixb_iff p l : prefixb p l = true <-> exists x, l = p ++ x.
Proof.
  revert l. induction p as [|a p IH]; intros l; cbn.
  - split; [exists l; reflexivity|reflexivity].
  - destruct l as [|b l]; [split; [discriminate|intros [x Hx]; discriminate]|]. rewrite andb_true_iff, IH, N.eqb_eq. split.
    + intros [-> [x ->]]. exists x. reflexivity.
    + intros [x [= -> ->]]. eauto.
Qed.
Lemma split_dot_at a b : ~ In 46 a -> split_dot (a ++ 46 :: b) = Some (a, b).
Proof.
  induction a as [|x a IH]; cbn; [reflexivity|]. intros H. destruct (N.eqb_spec x 46) as [-> | E]; [exfalso; auto|]. rewrite IH by auto. reflexivity.
Qed.
Lemma store_iff n : xattr_name_store n = true <-> xattr_kept n.
Proof.
  assert (D1 : forall x, split_dot (str_user_ ++ x) = Some ([117; 115; 101; 114], x)).
  { intros x. apply (split_dot_at [117; 115; 101; 114]). cbn. lia. }
  assert (D2 : forall x, split_dot (str_trusted_ ++ x) = Some ([116; 114; 117; 115; 116; 101; 100], x)).
  { intros x. apply (split_dot_at [116; 114; 117; 115; 116; 101; 100]). cbn. lia. }
  assert (Q : forall (p q x : list N), (forall x, split_dot (p ++ x) = Some (q, x)) -> (len q =? 0) = false -> (len p =? 0) = false ->
    xattr_name_is_valid (p ++ x) = true <-> x <> [] /\ len (p ++ x) <= 255).
  { intros p q x D Hq Hp. unfold xattr_name_is_valid. rewrite D, Hq. rewrite len_app at 1. apply N.eqb_neq in Hp.
    destruct (N.eqb_spec (len p + len x) 0) as [E | _]; [lia|]. destruct x as [|y x]; [split; [discriminate|intros [H _]; congruence]|].
    assert (L : (len (y :: x) =? 0) = false) by (rewrite len_cons; apply N.eqb_neq; lia). rewrite L.
    rewrite negb_true_iff, N.ltb_ge. split; [intros H; split; [discriminate|exact H]|tauto]. }
  unfold xattr_name_store, xattr_kept. split.
  - destruct (xattr_name_is_valid n) eqn:V; cbn [negb]; [|discriminate]. rewrite orb_true_iff, !prefixb_iff. intros [[x ->] | [x ->]].
    + apply (Q _ _ _ D1 eq_refl eq_refl) in V. destruct V. split; [exists x|]; auto.
    + apply (Q _ _ _ D2 eq_refl eq_refl) in V. destruct V. split; [exists x|]; auto.
  - intros [(x & Hx & [-> | ->]) L].
    + rewrite (proj2 (Q _ _ _ D1 eq_refl eq_refl)) by auto. cbn [negb]. apply orb_true_iff. left. apply prefixb_iff. eauto.
    + rewrite (proj2 (Q _ _ _ D2 eq_refl eq_refl)) by auto. cbn [negb]. apply orb_true_iff. right. apply prefixb_iff. eauto.
Qed.

Lemma sorted_strict {A} (cmp : A -> A -> comparison) l : StronglySorted (fun x y => cmp x y <> Gt) l -> 
  NoDup l -> (forall x y, In x l -> In y l -> cmp x y = Eq -> x = y) -> StronglySorted (fun x y => cmp x y = Lt) l.
Proof.
  induction 1 as [|x l S IH F]; intros N E; [constructor|]. inversion N as [|? ? N1 N2]; subst. constructor.
  - apply IH; [exact N2|]. intros; apply E; auto; right; assumption.
  - apply Forall_forall. intros y Hy. rewrite Forall_forall in F. specialize (F y Hy). cbv beta in F.
    destruct (cmp x y) eqn:C; [|reflexivity|congruence]. exfalso. apply N1. rewrite (E x y); auto; [left; reflexivity|right; exact Hy].
Qed.

Lemma xattrs_ok (Q : qsort_ok (ev_qsort ev)) s : stat_ok ev s ->
  let xs := if has ff WITH_XATTRS then fst (read_xattrs ev s) else [] in
  ascending (fun x y => str_lt (fst x) (fst y)) xs /\
  (forall x, In x xs <-> has ff WITH_XATTRS = true /\ S_ISLNK (st_mode s) = false /\ In x (fs_xattrs s) /\ xattr_kept (fst x)) /\
  (forall v, (if has ff WITH_FCAPS then snd (read_xattrs ev s) else None) = Some v <->
     has ff WITH_FCAPS = true /\ S_ISREG (st_mode s) = true /\ In (str_security_capability, v) (fs_xattrs s)).
Proof.
  intros S. cbv zeta. destruct (so_xattrs _ _ S) as [ND _].
  unfold read_xattrs. change (ev_ff ev) with ff. rewrite has_lor.
  set (fl := filter (fun x => xattr_name_store (fst x)) (fs_xattrs s)).
  destruct (Q _ xattr_cmp fl (orders_str fst)) as [P SS].
  assert (SO : StronglySorted (fun x y => str_lt (fst x) (fst y)) (ev_qsort ev _ xattr_cmp fl)).
  { apply (sorted_strict xattr_cmp); [exact SS| |].
    - eapply Permutation_NoDup; [exact P|]. apply NoDup_filter. apply NoDup_map_inv with (f := fst). exact ND.
    - intros x y Hx Hy E. apply Permutation_sym in P. apply (Permutation_in _ P) in Hx, Hy. apply filter_In in Hx as [Hx _]. apply filter_In in Hy as [Hy _].
      apply strcmp_eq in E. eapply NoDup_keys; eauto. }
  assert (In1 : forall x, In x (ev_qsort ev _ xattr_cmp fl) <-> In x (fs_xattrs s) /\ xattr_kept (fst x)).
  { intros x. rewrite <- store_iff. pose proof (filter_In (fun x => xattr_name_store (fst x)) x (fs_xattrs s)) as FI. cbv beta in FI. rewrite <- FI. change (filter _ _) with fl. split; intros H; [eapply Permutation_in; [apply Permutation_sym, P|exact H]|eapply Permutation_in; [exact P|exact H]]. }
  assert (In2 : forall v, option_map snd (find (fun x => beq (fst x) str_security_capability) (fs_xattrs s)) = Some v <-> In (str_security_capability, v) (fs_xattrs s)).
  { intros v. split.
    - destruct (find _ _) as [[a b]|] eqn:F; [|discriminate]. apply find_some in F as [F1 F2]. cbn in *. apply beq_eq in F2. intros [= <-]. subst. exact F1.
    - intros I. destruct (find _ _) as [[a b]|] eqn:F.
      + apply find_some in F as [F1 F2]. cbn in F2. apply beq_eq in F2. subst a. cbn. f_equal.
        pose proof (NoDup_keys _ _ _ ND I F1 eq_refl) as E. congruence.
      + exfalso. pose proof (find_none _ _ F _ I) as E. cbn [fst] in E. rewrite beq_refl in E. discriminate. }
  destruct (has ff WITH_XATTRS) eqn:HX; destruct (has ff WITH_FCAPS) eqn:HF; cbn [orb negb].
  all: destruct (S_ISLNK (st_mode s)) eqn:L; [assert (R : S_ISREG (st_mode s) = false) by (revert L; unfold S_ISLNK, S_ISREG, is_type; rewrite N.eqb_eq; intros ->; reflexivity); rewrite R; cbn [fst snd]|cbn [fst snd]].
  all: repeat match goal with |- _ /\ _ => split end; try exact SO; try apply SSorted_nil; try (intros; cbn [In]; rewrite ?In1; intuition congruence).
  all: intros v; destruct (S_ISREG (st_mode s)); rewrite ?In2; intuition congruence.
Qed.

(** ** ACLs *)
Definition is_tag (tag : acl_tag) (r : raw_acl) : bool :=
  match ra_tag r, tag with T_USER, T_USER | T_GROUP, T_GROUP => true | _, _ => false end.

Lemma acl_id_ok to_name lookup r e :
  (has ff WITH_USER_NAMES = true -> forall o, to_name (ra_qual r) = Ok o -> o = stored_name ev lookup (ra_qual r)) ->
  ra_qual r < two32 -> name_ok ev lookup (ra_qual r) ->
  acl_id ev to_name r = Ok e ->
  e = acl_stored ev lookup r /\ dec_acl ff e.
Proof.
  intros T L Nm. unfold acl_id. change (ev_ff ev) with ff. destruct (negb (uid_is_valid (ra_qual r))); [discriminate|]. cbv zeta.
  destruct (uid_is_valid (shift_uid ev (ra_qual r))) eqn:V; cbn [negb]; [|discriminate].
  destruct (has ff WITH_16BIT_UIDS && (UINT16_MAX <? shift_uid ev (ra_qual r)))%bool eqn:V2; [discriminate|].
  intros H.
  assert (E : e = acl_stored ev lookup r).
  { revert H. unfold acl_stored, stored_id. change (ev_ff ev) with ff. rewrite <- (shift_ok _ V).
    destruct (has ff WITH_USER_NAMES) eqn:U.
    - destruct (to_name (ra_qual r)) as [o| | |] eqn:O; cbn [bind]; try discriminate. rewrite (T eq_refl o eq_refl). intros [= <-]. reflexivity.
    - cbn [bind]. intros [= <-]. unfold stored_name. change (ev_ff ev) with ff. rewrite U. reflexivity. }
  split; [exact E|]. subst e. unfold dec_acl, is_acl_ent, acl_stored. cbn [ae_id ae_name ae_perm].
  destruct (id_valid (ra_qual r) L ltac:(auto)) as [I1 I2].
  split; [|split].
  - split; [exact I2|]. split; [unfold is_perm, perm_bits; destruct (ra_r r), (ra_w r), (ra_x r); lia|].
    intros n Hn. eapply stored_name_ok; eauto.
  - exact I1.
  - intros Hn. destruct (stored_name ev lookup (ra_qual r)) as [n|] eqn:En; [|congruence]. eapply stored_name_ok; eauto.
Qed.

Definition acl_tag_eq_dec (a b : acl_tag) : {a = b} + {a <> b}.
Proof. decide equality. Defined.

Definition obj_val (tag : acl_tag) (l : list raw_acl) (old v : N) : Prop :=
  (exists r, In r l /\ ra_tag r = tag /\ v = perm_bits r) \/ (~ has_tag tag l /\ v = old).
Lemma obj_val_cons tag r l old mid v : (ra_tag r = tag -> mid = perm_bits r) -> (ra_tag r <> tag -> mid = old) ->
  obj_val tag l mid v -> obj_val tag (r :: l) old v.
Proof.
  intros H1 H2 [(x & I & T & E) | [N E]].
  - left. exists x. split; [right; exact I|auto].
  - destruct (acl_tag_eq_dec (ra_tag r) tag) as [T | T].
    + left. exists r. split; [left; reflexivity|]. split; [exact T|]. rewrite E. auto.
    + right. split; [|rewrite E; auto]. intros (x & [<- | I] & Tx); [contradiction|]. apply N. exists x. auto.
Qed.

Lemma process_ok l : forall a a', (forall r, In r l -> ra_tag r = T_USER -> ra_qual r < two32 /\ name_ok ev (ev_pw ev) (ra_qual r)) ->
  (forall r, In r l -> ra_tag r = T_GROUP -> ra_qual r < two32 /\ name_ok ev (ev_gr ev) (ra_qual r)) ->
  process_acl_entries ev a l = Ok a' ->
  aa_users a' = aa_users a ++ map (acl_stored ev (ev_pw ev)) (filter (is_tag T_USER) l) /\
  aa_groups a' = aa_groups a ++ map (acl_stored ev (ev_gr ev)) (filter (is_tag T_GROUP) l) /\
  obj_val T_USER_OBJ l (aa_user_obj a) (aa_user_obj a') /\ obj_val T_GROUP_OBJ l (aa_group_obj a) (aa_group_obj a') /\
  obj_val T_OTHER l (aa_other a) (aa_other a') /\ obj_val T_MASK l (aa_mask a) (aa_mask a') /\
  Forall (fun r => is_tag T_USER r = true -> dec_acl ff (acl_stored ev (ev_pw ev) r)) l /\
  Forall (fun r => is_tag T_GROUP r = true -> dec_acl ff (acl_stored ev (ev_gr ev) r)) l.
Proof.
  induction l as [|r l IH]; intros a a' HU HG H.
  - injection H as <-. cbn. rewrite !app_nil_r.
    assert (Z : forall tag v, obj_val tag [] v v) by (intros; right; split; [intros (x & [] & _)|reflexivity]).
    repeat (split; [auto|]). constructor.
  - cbn [process_acl_entries] in H. destruct (process_acl_entry ev a r) as [a1| | |] eqn:E; cbn [bind] in H; try discriminate.
    apply IH in H; [|intros x Hx; apply HU; right; exact Hx|intros x Hx; apply HG; right; exact Hx].
    destruct H as (U & G & O1 & O2 & O3 & O4 & D1 & D2). unfold process_acl_entry in E.
    assert (EU : ra_tag r = T_USER -> forall e, acl_id ev (uid_to_name ev) r = Ok e -> e = acl_stored ev (ev_pw ev) r /\ dec_acl ff e).
    { intros T e. destruct (HU r (or_introl eq_refl) T) as [L Nm]. apply acl_id_ok; auto. intros Un o Ho. eapply name_of; eauto. }
    assert (EG : ra_tag r = T_GROUP -> forall e, acl_id ev (gid_to_name ev) r = Ok e -> e = acl_stored ev (ev_gr ev) r /\ dec_acl ff e).
    { intros T e. destruct (HG r (or_introl eq_refl) T) as [L Nm]. apply acl_id_ok; auto. intros Un o Ho. eapply name_of; eauto. }
    cbn [filter]. change (raw_perm r) with (perm_bits r) in E.
    assert (IT1 : is_tag T_USER r = match ra_tag r with T_USER => true | _ => false end) by (unfold is_tag; destruct (ra_tag r); reflexivity).
    assert (IT2 : is_tag T_GROUP r = match ra_tag r with T_GROUP => true | _ => false end) by (unfold is_tag; destruct (ra_tag r); reflexivity).
    rewrite IT1, IT2.
    destruct (ra_tag r) eqn:T;
      [injection E as <-
      |destruct (acl_id ev (uid_to_name ev) r) as [e| | |]; cbn [bind] in E; try discriminate; injection E as <-; destruct (EU eq_refl e eq_refl) as [-> De]
      |injection E as <-
      |destruct (acl_id ev (gid_to_name ev) r) as [e| | |]; cbn [bind] in E; try discriminate; injection E as <-; destruct (EG eq_refl e eq_refl) as [-> De]
      |injection E as <-|injection E as <-]; cbn [aa_users aa_groups aa_user_obj aa_group_obj aa_other aa_mask map] in *;
      (split; [rewrite U, <- ?app_assoc; reflexivity|]);
      (split; [rewrite G, <- ?app_assoc; reflexivity|]);
      (split; [eapply obj_val_cons; [| |exact O1]; rewrite T; congruence|]);
      (split; [eapply obj_val_cons; [| |exact O2]; rewrite T; congruence|]);
      (split; [eapply obj_val_cons; [| |exact O3]; rewrite T; congruence|]);
      (split; [eapply obj_val_cons; [| |exact O4]; rewrite T; congruence|]);
      split; constructor; try assumption; rewrite ?IT1, ?IT2; try discriminate; auto.
Qed.

Lemma named_ok (Q : qsort_ok (ev_qsort ev)) tag lookup acl : (tag = T_USER \/ tag = T_GROUP) -> named_once ev tag lookup acl ->
  named ev tag lookup acl (ev_qsort ev _ acl_cmp (map (acl_stored ev lookup) (filter (is_tag tag) acl))).
Proof.
  intros Ht N. unfold named_once in N. change (fun r => match ra_tag r with T_USER => _ | _ => _ end) with (is_tag tag) in N.
  set (l := map _ (filter (is_tag tag) acl)) in *. destruct (Q _ acl_cmp l orders_acl) as [P S]. split.
  - apply (sorted_strict acl_cmp); [exact S|eapply Permutation_NoDup; [exact P|exact N]|]. intros x y _ _ E. apply acl_cmp_eq, E.
  - intros e. assert (I : In e (ev_qsort ev acl_ent acl_cmp l) <-> In e l) by (split; apply Permutation_in; [apply Permutation_sym|]; exact P).
    rewrite I. unfold l. rewrite in_map_iff. split.
    + intros (r & <- & Hr). apply filter_In in Hr as [Hr T]. exists r. split; [exact Hr|]. split; [|reflexivity].
      unfold is_tag in T. destruct (ra_tag r), tag; auto; discriminate.
    + intros (r & Hr & T & ->). exists r. split; [reflexivity|]. apply filter_In. split; [exact Hr|]. unfold is_tag. rewrite T. destruct Ht as [-> | ->]; reflexivity.
Qed.

(** What is known of the result of reading one ACL. *)
Record acl_fine (acl : list raw_acl) (a : acl_acc) : Prop := mkAclFine {
  af_users : named ev T_USER (ev_pw ev) acl (aa_users a); af_groups : named ev T_GROUP (ev_gr ev) acl (aa_groups a);
  af_uo : unnamed T_USER_OBJ acl (aa_user_obj a); af_go : unnamed T_GROUP_OBJ acl (aa_group_obj a);
  af_ot : unnamed T_OTHER acl (aa_other a); af_ma : unnamed T_MASK acl (aa_mask a);
  af_dusers : Forall (dec_acl ff) (aa_users a); af_dgroups : Forall (dec_acl ff) (aa_groups a) }.

Lemma acl_fine0 (Q : qsort_ok (ev_qsort ev)) : acl_fine [] acl_acc0.
Proof.
  assert (N : forall tag lookup, named ev tag lookup [] []).
  { intros. split; [constructor|]. intros e. split; [intros []|intros (r & [] & _)]. }
  assert (O : forall tag, unnamed tag [] UINT64_MAX) by (intros tag; right; split; [intros (r & [] & _)|reflexivity]).
  constructor; cbn; auto.
Qed.

Lemma process_acl_ok (Q : qsort_ok (ev_qsort ev)) acl a : acl_ok ev acl -> process_acl ev acl = Ok a -> acl_fine acl a.
Proof.
  intros A H. unfold process_acl in H. destruct (process_acl_entries ev acl_acc0 acl) as [a1| | |] eqn:E; cbn [bind] in H; try discriminate.
  injection H as <-. apply process_ok in E; [|apply A|apply A]. destruct E as (U & G & O1 & O2 & O3 & O4 & D1 & D2). cbn [acl_acc0 aa_users aa_groups aa_user_obj aa_group_obj aa_other aa_mask app] in *.
  assert (FD : forall tag lookup, Forall (fun r => is_tag tag r = true -> dec_acl ff (acl_stored ev lookup r)) acl ->
    Forall (dec_acl ff) (ev_qsort ev acl_ent acl_cmp (map (acl_stored ev lookup) (filter (is_tag tag) acl)))).
  { intros tag lookup F. destruct (Q _ acl_cmp (map (acl_stored ev lookup) (filter (is_tag tag) acl)) orders_acl) as [P _]. rewrite <- P.
    apply Forall_forall. intros e He. apply in_map_iff in He as (r & <- & Hr). apply filter_In in Hr as [Hr T]. rewrite Forall_forall in F. auto. }
  constructor; cbn [aa_users aa_groups aa_user_obj aa_group_obj aa_other aa_mask]; rewrite ?U, ?G; auto.
  - apply named_ok; [exact Q|auto|apply A].
  - apply named_ok; [exact Q|auto|apply A].
Qed.

Lemma perm_le r : perm_bits r <= 7.
Proof. unfold perm_bits. destruct (ra_r r), (ra_w r), (ra_x r); lia. Qed.
Lemma unnamed_cases tag acl p : unnamed tag acl p -> (has_tag tag acl /\ p <= 7) \/ (~ has_tag tag acl /\ p = UINT64_MAX).
Proof.
  intros [(r & I & T & ->) | [N ->]]; [left; split; [exists r; auto|apply perm_le]|right; auto].
Qed.

(** ** What the decoder demands of mode and flags *)
Definition known_type (m : N) : Prop :=
  (S_ISREG m || S_ISDIR m || S_ISLNK m || S_ISBLK m || S_ISCHR m || S_ISFIFO m || S_ISSOCK m)%bool = true.

Lemma mode_valid (F : ff_fine) s : known_type (st_mode s) -> type_stored ev (st_mode s) = true ->
  validate_mode ff (fixup_mode ev (st_mode s)) (entry_flags ev s) = true.
Proof.
  intros K T. unfold validate_mode. rewrite if_b.
  2:{ apply N.eqb_eq. change (N.lor S_IFMT 0xFFF) with (N.ones 16). destruct (N.eq_dec (fixup_mode ev (st_mode s)) 0) as [-> | Z]; [reflexivity|].
      apply N.ldiff_ones_r_low. apply N.log2_lt_pow2; [lia|apply fixup_small]. }
  unfold S_ISREG, S_ISDIR, S_ISLNK, S_ISBLK, S_ISCHR, S_ISFIFO, S_ISSOCK. rewrite !type_fixup.
  fold (S_ISDIR (st_mode s)) (S_ISREG (st_mode s)) (S_ISLNK (st_mode s)) (S_ISBLK (st_mode s)) (S_ISCHR (st_mode s)) (S_ISFIFO (st_mode s)) (S_ISSOCK (st_mode s)).
  rewrite if_b.
  2:{ revert K T. unfold known_type, type_stored. change (ev_ff ev) with ff.
      destruct (S_ISREG (st_mode s)); [reflexivity|]. destruct (S_ISDIR (st_mode s)); [reflexivity|].
      intros K.
      repeat match goal with |- context [if ?c then false else _] => let E := fresh "E" in destruct c eqn:E; [discriminate|] end.
      intros E3. apply negb_true_iff in E3.
      destruct (S_ISSOCK (st_mode s)); [rewrite andb_true_r in E3; apply negb_false_iff in E3; exact E3|].
      destruct (S_ISFIFO (st_mode s)); [rewrite andb_true_r in E1; apply negb_false_iff in E1; exact E1|].
      destruct (S_ISBLK (st_mode s)); [cbn [orb] in E0; rewrite andb_true_r in E0; apply negb_false_iff in E0; exact E0|].
      destruct (S_ISCHR (st_mode s)); [cbn [orb] in E0; rewrite andb_true_r in E0; apply negb_false_iff in E0; exact E0|].
      destruct (S_ISLNK (st_mode s)); [rewrite andb_true_r in E; apply negb_false_iff in E; exact E|discriminate]. }
  rewrite if_f.
  2:{ destruct (S_ISDIR (st_mode s)) eqn:D; [reflexivity|]. cbn [negb andb]. change WITH_SUBVOLUME with (2 ^ 26). rewrite has_pow.
      destruct (N.testbit (entry_flags ev s) 26) eqn:B; [|reflexivity]. exfalso. apply (flags_ok F) in B as [_ [[_ (j & A)] | [A _]]]; [|congruence].
      destruct A as [[A _] | [A _]]; cbn in A; repeat (destruct A as [A | A]; [discriminate|]); exact A. }
  rewrite perms_fixup. unfold stored_perms. change (ev_ff ev) with ff. rewrite has_lor.
  destruct (S_ISLNK (st_mode s)); [reflexivity|]. destruct (has ff WITH_PERMISSIONS || has ff WITH_ACL)%bool; [reflexivity|].
  destruct (has ff WITH_READ_ONLY), (N.land (st_mode s) 0x92 =? 0), (S_ISDIR (st_mode s)); reflexivity.
Qed.

Lemma attribute_bits s k : has_attribute s k -> N.testbit (bor [WITH_FAT_ATTRS; WITH_CHATTR; WITH_SUBVOLUME; WITH_SUBVOLUME_RO]) k = true.
Proof.
  intros [[_ (j & A)] | [_ A]].
  - destruct A as [[A _] | [A _]]; cbn in A; repeat (destruct A as [A | A]; [injection A as <- <-; reflexivity|]); contradiction.
  - destruct A as [[-> _] | [-> _]]; reflexivity.
Qed.
Lemma flags_valid (F : ff_fine) s : validate_entry_flags ff (entry_flags ev s) = true /\ entry_flags ev s < two64.
Proof.
  split.
  - unfold validate_entry_flags. apply N.eqb_eq. apply N.bits_inj. intros k. rewrite N.ldiff_spec, N.bits_0, N.land_spec.
    destruct (N.testbit (entry_flags ev s) k) eqn:B; [|reflexivity]. apply (flags_ok F) in B as [B1 B2]. rewrite B1, (attribute_bits _ _ B2). reflexivity.
  - destruct (N.eq_dec (entry_flags ev s) 0) as [-> | Z]; [reflexivity|]. change two64 with (2 ^ 64). apply N.log2_lt_pow2; [lia|].
    assert (B := N.bit_log2 _ Z). apply (flags_ok F) in B as [B1 _]. apply (fn_known F) in B1. unfold known_bit in B1. lia.
Qed.

(** ** All of the meta data *)
Theorem meta_ok (Q : qsort_ok (ev_qsort ev)) (F : ff_fine) c s m c' : cache_ok c -> stat_ok ev s -> known_type (st_mode s) -> entry_meta ev c s = Ok (m, c') ->
  cache_ok c' /\ meta_stored ev s m /\ dec_file ff m /\ m_mode m = fixup_mode ev (st_mode s) /\ type_stored ev (st_mode s) = true.
Proof.
  intros C S KT H. unfold entry_meta in H. change (ev_ff ev) with ff in H.
  destruct (read_xattrs ev s) as [xs fc] eqn:EX.
  pose proof (xattrs_ok Q s S) as X. rewrite EX in X. cbn [fst snd] in X. cbv zeta in X. destruct X as (X1 & X2 & X3).
  set (A := if has ff WITH_ACL && negb (S_ISLNK (st_mode s)) then process_acl ev (fs_acl s) else Ok acl_acc0) in H.
  assert (HA : forall a, A = Ok a -> acl_fine (the_acl ev s) a).
  { unfold A, the_acl. change (ev_ff ev) with ff. destruct (has ff WITH_ACL && negb (S_ISLNK (st_mode s)))%bool; intros a.
    - apply process_acl_ok; [exact Q|apply S].
    - intros [= <-]. apply acl_fine0, Q. }
  destruct A as [acl| | |]; cbn [bind] in H; try discriminate. specialize (HA acl eq_refl).
  set (B := if has ff WITH_ACL && S_ISDIR (st_mode s) then process_acl ev (fs_default_acl s) else Ok acl_acc0) in H.
  assert (HB : forall a, B = Ok a -> acl_fine (the_default_acl ev s) a).
  { unfold B, the_default_acl. change (ev_ff ev) with ff. destruct (has ff WITH_ACL && S_ISDIR (st_mode s))%bool; intros a.
    - apply process_acl_ok; [exact Q|apply S].
    - intros [= <-]. apply acl_fine0, Q. }
  destruct B as [dacl| | |]; cbn [bind] in H; try discriminate. specialize (HB dacl eq_refl).
  destruct (read_names ev c s) as [c2| | |] eqn:EN; cbn [bind] in H; try discriminate.
  destruct (read_names_ok _ _ _ C S EN) as (C2 & N1 & N2).
  destruct (entry_ids ev s) as [[u g]| | |] eqn:EI; cbn [bind] in H; try discriminate.
  destruct (ids_ok s u g S EI) as ((U1 & U2) & (U3 & U4) & (U5 & U6)).
  destruct (type_stored ev (st_mode s)) eqn:TS; cbn [negb] in H; [|discriminate].
  rewrite N1, N2 in H.
  injection H as <- <-. split; [exact C2|].
  set (xa := if has ff WITH_XATTRS then xs else []) in *. set (fca := if has ff WITH_FCAPS then fc else None) in *.
  set (go := if negb (aa_group_obj acl =? UINT64_MAX) && negb (aa_mask acl =? UINT64_MAX) then aa_group_obj acl else UINT64_MAX).
  set (pj := (if (S_ISDIR (st_mode s) || S_ISREG (st_mode s)) && has ff WITH_QUOTA_PROJID then fs_projid s else 0)).
  set (mt := encoder_fixup_mtime _ _). assert (HT := time_ok F s S). fold mt in HT. clearbody mt.
  match goal with |- meta_stored ev s ?mm /\ _ => set (m := mm) end.
  assert (ACLF : the_acl ev s <> [] -> has ff WITH_ACL = true /\ S_ISLNK (st_mode s) = false).
  { unfold the_acl. change (ev_ff ev) with ff. destruct (has ff WITH_ACL), (S_ISLNK (st_mode s)); cbn; auto; congruence. }
  assert (DACLF : the_default_acl ev s <> [] -> has ff WITH_ACL = true /\ S_ISDIR (st_mode s) = true).
  { unfold the_default_acl. change (ev_ff ev) with ff. destruct (has ff WITH_ACL), (S_ISDIR (st_mode s)); cbn; auto; congruence. }
  assert (tagne : forall tag l, has_tag tag l -> l <> []) by (intros tag l (r & I & _) ->; exact I).
  assert (HGO : (has_tag T_MASK (the_acl ev s) /\ unnamed T_GROUP_OBJ (the_acl ev s) go) \/ (~ has_tag T_MASK (the_acl ev s) /\ go = UINT64_MAX)).
  { pose proof (af_go _ _ HA) as G1. pose proof (af_ma _ _ HA) as G2. unfold go.
    destruct (unnamed_cases _ _ _ G2) as [[T2 L2] | [T2 E2]].
    - left. split; [exact T2|]. assert (Z : (aa_mask acl =? UINT64_MAX) = false) by (apply N.eqb_neq; intros Z; rewrite Z in L2; exact (L2 eq_refl)).
      rewrite Z. cbn [negb]. rewrite andb_true_r. destruct (N.eqb_spec (aa_group_obj acl) UINT64_MAX) as [Z2 | Z2]; cbn [negb]; [rewrite Z2 in G1|]; exact G1.
    - right. split; [exact T2|]. rewrite E2. rewrite andb_false_r. reflexivity. }
  assert (MS : meta_stored ev s m).
  { constructor; cbn [m m_mode m_flags m_uid m_gid m_mtime m_user m_group m_xattrs m_acl_user m_acl_group m_acl_group_obj m_acl_default_user_obj
      m_acl_default_group_obj m_acl_default_other m_acl_default_mask m_acl_default_user m_acl_default_group m_selinux m_fcaps m_projid];
      try (apply HA); try (apply HB); auto.
    - apply mode_ok.
    - apply flags_ok, F.
    - intros p. unfold pj. change (ev_ff ev) with ff. destruct (S_ISDIR (st_mode s)), (S_ISREG (st_mode s)), (has ff WITH_QUOTA_PROJID); cbn [orb andb];
        rewrite ?N.eqb_refl; try (destruct (N.eqb_spec (fs_projid s) 0)); intuition congruence. }
  split; [exact MS|]. split; [|split; [reflexivity|reflexivity]].
  assert (HL : Forall (fun x => is_xattr_name (fst x) /\ len (snd x) <= 65536 /\ has ff WITH_XATTRS = true) xa).
  { apply Forall_forall. intros x Hx. apply X2 in Hx as (Y1 & Y2 & Y3 & (y & Hy & Yn) & Yl). destruct (so_xattrs _ _ S) as [_ FX].
    rewrite Forall_forall in FX. destruct (FX x Y3) as [Z1 Z2]. split; [|auto]. split; [|auto].
    destruct Yn as [-> | ->]; [exists [117; 115; 101; 114], y|exists [116; 114; 117; 115; 116; 101; 100], y];
      (split; [reflexivity|]); (split; [discriminate|]); (split; [exact Hy|]); cbn; lia. }
  assert (NE : forall tag lookup l e, named ev tag lookup l e -> e <> [] -> has_tag tag l).
  { intros tag lookup l e [_ I] Hne. destruct e as [|x e]; [congruence|]. destruct (proj1 (I x) (or_introl eq_refl)) as (r & Ir & T & _). exists r. auto. }
  assert (HD : forall l a, acl_fine l a -> (l <> [] -> has ff WITH_ACL = true) ->
    Forall (fun a => dec_acl ff a /\ has ff WITH_ACL = true) (aa_users a) /\ Forall (fun a => dec_acl ff a /\ has ff WITH_ACL = true) (aa_groups a)).
  { intros l a Ha Hl. split; apply Forall_forall; intros e He.
    - split; [pose proof (af_dusers _ _ Ha) as Z; rewrite Forall_forall in Z; auto|]. apply Hl. apply (tagne T_USER). eapply NE; [apply Ha|]. intros Z; rewrite Z in He; exact He.
    - split; [pose proof (af_dgroups _ _ Ha) as Z; rewrite Forall_forall in Z; auto|]. apply Hl. apply (tagne T_GROUP). eapply NE; [apply Ha|]. intros Z; rewrite Z in He; exact He. }
  destruct (HD _ _ HA (fun z => proj1 (ACLF z))) as [HD1 HD2]. destruct (HD _ _ HB (fun z => proj1 (DACLF z))) as [HD3 HD4]. clear HD.
  assert (ACL1 : the_acl ev s = [] \/ acl_ok ev (the_acl ev s)).
  { unfold the_acl. destruct (has (ev_ff ev) WITH_ACL && negb (S_ISLNK (st_mode s)))%bool; [right; apply S|left; reflexivity]. }
  assert (ACL2 : the_default_acl ev s = [] \/ acl_ok ev (the_default_acl ev s)).
  { unfold the_default_acl. destruct (has (ev_ff ev) WITH_ACL && S_ISDIR (st_mode s))%bool; [right; apply S|left; reflexivity]. }
  assert (UN : forall tag l v, unnamed tag l v -> is_perm_opt v) by (intros tag l v Hv; destruct (unnamed_cases _ _ _ Hv) as [[_ Z] | [_ Z]]; [left|right]; exact Z).
  assert (GO7 : go = UINT64_MAX \/ go <= 7 /\ has ff WITH_ACL = true).
  { destruct HGO as [[T G] | [_ E]]; [|auto]. destruct (unnamed_cases _ _ _ G) as [[_ Z] | [_ Z]]; [right|left; exact Z].
    split; [exact Z|]. apply ACLF. eapply tagne; eauto. }
  assert (MODE : m_mode m = fixup_mode ev (st_mode s)) by reflexivity.
  assert (VM : valid_meta m).
  { pose proof (type_fixup (st_mode s)) as TF.
    constructor; cbn [m m_mode m_flags m_uid m_gid m_mtime m_user m_group m_xattrs m_acl_user m_acl_group m_acl_group_obj m_acl_default_user_obj
      m_acl_default_group_obj m_acl_default_other m_acl_default_mask m_acl_default_user m_acl_default_group m_selinux m_fcaps m_projid];
      unfold S_ISDIR, S_ISREG, S_ISLNK; rewrite ?TF; fold (S_ISDIR (st_mode s)) (S_ISREG (st_mode s)) (S_ISLNK (st_mode s)).
    - apply fixup_small.
    - exact U4.
    - exact U6.
    - intros n Hn. eapply stored_name_ok; [|exact Hn]. apply S.
    - intros n Hn. eapply stored_name_ok; [|exact Hn]. apply S.
    - eapply Forall_impl; [|exact HL]. intros x Z. apply Z.
    - exact X1.
    - split; [eapply Forall_impl; [|exact HD1]; intros x Z; apply Z|apply (af_users _ _ HA)].
    - split; [eapply Forall_impl; [|exact HD2]; intros x Z; apply Z|apply (af_groups _ _ HA)].
    - destruct GO7 as [Z | [Z _]]; [right|left]; exact Z.
    - eapply UN, HB.
    - eapply UN, HB.
    - eapply UN, HB.
    - eapply UN, HB.
    - split; [eapply Forall_impl; [|exact HD3]; intros x Z; apply Z|apply (af_users _ _ HB)].
    - split; [eapply Forall_impl; [|exact HD4]; intros x Z; apply Z|apply (af_groups _ _ HB)].
    - intros Hne. assert (T : has_tag T_USER (the_acl ev s) \/ has_tag T_GROUP (the_acl ev s)).
      { destruct Hne as [Hne | Hne]; [left|right]; (eapply NE; [|exact Hne]); apply HA. }
      assert (Ok_ : acl_ok ev (the_acl ev s)) by (destruct ACL1 as [Z | Z]; [rewrite Z in T; exfalso; destruct T as [(r & [] & _) | (r & [] & _)]|exact Z]).
      pose proof (ao_masked _ _ Ok_ T) as M. destruct HGO as [[_ G] | [G _]]; [|contradiction].
      destruct (unnamed_cases _ _ _ G) as [[_ Z] | [Z _]]; [intros Z2; rewrite Z2 in Z; exact (Z eq_refl)|].
      exfalso. apply Z. apply (ao_complete _ _ Ok_). eapply tagne; eauto.
    - intros Hne. assert (T : has_tag T_USER (the_default_acl ev s) \/ has_tag T_GROUP (the_default_acl ev s)).
      { destruct Hne as [Hne | Hne]; [left|right]; (eapply NE; [|exact Hne]); apply HB. }
      assert (Ok_ : acl_ok ev (the_default_acl ev s)) by (destruct ACL2 as [Z | Z]; [rewrite Z in T; exfalso; destruct T as [(r & [] & _) | (r & [] & _)]|exact Z]).
      pose proof (ao_masked _ _ Ok_ T) as M. destruct (unnamed_cases _ _ _ (af_ma _ _ HB)) as [[_ Z] | [Z _]]; [intros Z2; rewrite Z2 in Z; exact (Z eq_refl)|contradiction].
    - intros D. assert (E : the_default_acl ev s = []) by (unfold the_default_acl; rewrite D, andb_false_r; reflexivity).
      assert (Z1 : forall tag lookup e, named ev tag lookup [] e -> e = []).
      { intros tag lookup e Hn. destruct e as [|x e]; [reflexivity|]. exfalso. destruct (NE _ _ _ _ Hn ltac:(discriminate)) as (r & [] & _). }
      assert (Z2 : forall tag v, unnamed tag [] v -> v = UINT64_MAX).
      { intros tag v Hv. destruct (unnamed_cases _ _ _ Hv) as [[(r & [] & _) _] | [_ Z]]. exact Z. }
      rewrite E in HB. repeat split; first [eapply Z1, HB | eapply Z2, HB].
    - intros l Hl. destruct (has ff WITH_SELINUX); [|discriminate]. destruct (so_selinux _ _ S l Hl) as (Y1 & Y2 & _). auto.
    - intros R. destruct fca as [v|] eqn:Ef; [|reflexivity]. destruct (proj1 (X3 v) eq_refl) as (_ & Z & _). congruence.
    - intros q Hq. destruct (proj1 (ms_projid _ _ _ MS q) Hq) as (_ & Y1 & Y2 & Y3). pose proof (so_projid _ _ S) as L. unfold UINT32_MAX. unfold two32 in L. split; [lia|].
      apply orb_true_iff. exact Y1.
    - intros L. split.
      + rewrite mode_ok. unfold stored_perms. rewrite L. unfold S_ISLNK, is_type in L. apply N.eqb_eq in L. rewrite L. reflexivity.
      + assert (E : the_acl ev s = []) by (unfold the_acl; rewrite L, andb_false_r; reflexivity). rewrite E in HA, HGO.
        assert (Z1 : forall tag lookup e, named ev tag lookup [] e -> e = []).
        { intros tag lookup e Hn. destruct e as [|x e]; [reflexivity|]. exfalso. destruct (NE _ _ _ _ Hn ltac:(discriminate)) as (r & [] & _). }
        split; [|split; [eapply Z1, HA|split; [eapply Z1, HA|]]].
        * destruct xa as [|x xa'] eqn:Ex; [reflexivity|]. exfalso. destruct (proj1 (X2 x) (or_introl eq_refl)) as (_ & Y & _). congruence.
        * destruct HGO as [[(r & [] & _) _] | [_ Z]]. exact Z.
    - intros Hf. assert (exists k, N.testbit (entry_flags ev s) k = true) as [k Hk].
      { exists (N.log2 (entry_flags ev s)). apply N.bit_log2. exact Hf. }
      apply (flags_ok F) in Hk. destruct Hk as [_ [[Y _] | [Y _]]]; apply orb_true_iff; tauto. }
  constructor; [|exact VM|].
  - constructor; cbn [m m_mode m_flags m_uid m_gid m_mtime m_user m_group m_xattrs m_acl_user m_acl_group m_acl_group_obj m_acl_default_user_obj
      m_acl_default_group_obj m_acl_default_other m_acl_default_mask m_acl_default_user m_acl_default_group m_selinux m_fcaps m_projid].
    + apply mode_valid; assumption.
    + apply flags_valid, F.
    + exact U3.
    + exact U5.
    + apply (time_valid F s mt S HT).
    + pose proof (fixup_small (st_mode s)). unfold two64. lia.
    + apply flags_valid, F.
    + destruct U4. unfold UINT32_MAX, two64 in *. lia.
    + destruct U6. unfold UINT32_MAX, two64 in *. lia.
    + apply (time_valid F s mt S HT).
    + intros n Hn. eapply stored_name_ok; [|exact Hn]. apply S.
    + intros n Hn. eapply stored_name_ok; [|exact Hn]. apply S.
    + exact HL.
    + exact X1.
    + exact HD1.
    + apply (af_users _ _ HA).
    + exact HD2.
    + apply (af_groups _ _ HA).
    + exact GO7.
    + destruct ACL2 as [E | Ok_].
      * left. assert (Z2 : forall tag v, unnamed tag [] v -> v = UINT64_MAX).
        { intros tag v Hv. destruct (unnamed_cases _ _ _ Hv) as [[(r & [] & _) _] | [_ Z]]. exact Z. }
        rewrite E in HB. repeat split; eapply Z2, HB.
      * destruct (the_default_acl ev s) as [|r0 l0] eqn:El.
        { left. assert (Z2 : forall tag v, unnamed tag [] v -> v = UINT64_MAX).
          { intros tag v Hv. destruct (unnamed_cases _ _ _ Hv) as [[(r & [] & _) _] | [_ Z]]. exact Z. }
          repeat split; eapply Z2, HB. }
        rewrite <- El in *. assert (Hne : the_default_acl ev s <> []) by (rewrite El; discriminate). clear El.
        right. destruct (ao_complete _ _ Ok_ Hne) as (T1 & T2 & T3). destruct (DACLF Hne) as [HF _].
        assert (Z3 : forall tag v, has_tag tag (the_default_acl ev s) -> unnamed tag (the_default_acl ev s) v -> v <= 7).
        { intros tag v Ht Hv. destruct (unnamed_cases _ _ _ Hv) as [[_ Z] | [Z _]]; [exact Z|contradiction]. }
        split; [eapply Z3; [exact T1|apply HB]|]. split; [eapply Z3; [exact T2|apply HB]|]. split; [eapply Z3; [exact T3|apply HB]|].
        split; [|exact HF]. apply (UN _ _ _ (af_ma _ _ HB)).
    + exact HD3.
    + apply (af_users _ _ HB).
    + exact HD4.
    + apply (af_groups _ _ HB).
    + intros l Hl. destruct (has ff WITH_SELINUX); [|discriminate]. destruct (so_selinux _ _ S l Hl) as (Y1 & Y2 & Y3). auto.
    + intros v Hv. destruct (proj1 (X3 v) Hv) as (_ & _ & I). destruct (so_xattrs _ _ S) as [_ FX]. rewrite Forall_forall in FX. apply (FX _ I).
    + intros q Hq. exact (proj1 (vm_projid _ VM q Hq)).
  - intros Hu Hi. cbn [m m_user m_group].
    destruct (so_root _ _ S Hu Hi) as [R1 R2]. unfold stored_name. change (ev_ff ev) with ff. rewrite Hu.
    apply N.eqb_neq in R1 as R1'. apply N.eqb_neq in R2 as R2'. rewrite R1', R2'. cbn [negb andb].
    split; [apply (proj2 (so_user _ _ S Hu R1) Hi)|apply (proj2 (so_group _ _ S Hu R2) Hi)].
Qed.
End Meta.
