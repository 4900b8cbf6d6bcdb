(** C14, C15, C16, C41, C42: feature flags. *)
From Verif Require Import Base FeatureFlags FeatureFlagsSpec FeatureFlagsProofs FeatureFlagsProofs2.
From Coq Require Import String.
Import List.
Local Open Scope N_scope.

(** C14. Normalising succeeds exactly on the sets without unknown bits. *)
Theorem normalize_accepts :
  forall f, (exists g, feature_flags_normalize f = Ok g) <-> only_known_bits f.
Proof.
  intros f. split.
  - intros [g H]. apply (normalize_Ok f g H).
  - intros K. apply only_known_ok in K. destruct (normalize_ok f K) as (g & H & _). eauto.
Qed.
Print Assumptions normalize_accepts.

(** C14. The result has no unknown bits, is reported as normalised, means the same as the input,
    and normalising it again changes nothing. *)
Theorem normalize_sound :
  forall f g, feature_flags_normalize f = Ok g ->
  only_known_bits g /\
  feature_flags_are_normalized g = Ok true /\
  same_meaning (meaning_of g) (meaning_of f) /\
  feature_flags_normalize g = Ok g.
Proof.
  intros f g H. destruct (normalize_Ok f g H) as (Kf & Kg & B). split; [exact Kg|].
  assert (A : anb (N.testbit g) = true).
  { unfold anb. rewrite !B. apply anb_normb. }
  split; [rewrite are_normalized_bits, A by exact Kg; reflexivity|]. split.
  - pose proof (normb_meaning (N.testbit f)) as (E1 & E2 & E3 & E4 & E5 & E6 & E7 & E8).
    change (meaning_of g) with (meaningb (N.testbit g)). change (meaning_of f) with (meaningb (N.testbit f)).
    unfold same_meaning, meaningb in *. cbn [m_id_bits m_names m_granule m_perm m_nodump m_subvolume m_subvolume_ro m_other] in *.
    rewrite !B. repeat (split; [assumption|]). intros k. rewrite B. apply E8.
  - pose proof Kg as K. apply only_known_ok in K. destruct (normalize_ok g K) as (g' & E & B'). rewrite E. f_equal.
    destruct (normalize_Ok g g' E) as (_ & Kg' & _). apply ext_known; [exact Kg'|exact Kg|].
    intros k Hk. rewrite B'. apply anb_fix; assumption.
Qed.
Print Assumptions normalize_sound.

(** C14. Normal forms are unique: two sets that mean the same normalise to the same set. *)
Theorem normalize_canonical :
  forall f f' g g', feature_flags_normalize f = Ok g -> feature_flags_normalize f' = Ok g' ->
  same_meaning (meaning_of f) (meaning_of f') -> g = g'.
Proof.
  intros f f' g g' H H' S. destruct (normalize_Ok f g H) as (Kf & Kg & B). destruct (normalize_Ok f' g' H') as (Kf' & Kg' & B').
  apply ext_known; [assumption..|]. intros k Hk. rewrite B, B'. apply normb_canonical; assumption.
Qed.
Print Assumptions normalize_canonical.

(** C14. The test accepts exactly the sets that normalisation leaves alone. *)
Theorem are_normalized_exact :
  forall f, only_known_bits f ->
  (feature_flags_are_normalized f = Ok true <-> feature_flags_normalize f = Ok f).
Proof.
  intros f K. split; [|intros H; apply (normalize_sound f f H)].
  rewrite are_normalized_bits by exact K. intros A. inversion A as [A'].
  pose proof K as K'. apply only_known_ok in K'. destruct (normalize_ok f K') as (g & E & B). rewrite E. f_equal.
  destruct (normalize_Ok f g E) as (_ & Kg & _). apply ext_known; [exact Kg|exact K|].
  intros k Hk. rewrite B. apply anb_fix; assumption.
Qed.
Print Assumptions are_normalized_exact.

Example c14_case :
  only_known_bits FORMAT_DEFAULT /\ feature_flags_normalize FORMAT_DEFAULT = Ok FORMAT_DEFAULT /\
  feature_flags_normalize (N.lor WITH_ACL (N.lor WITH_UNIX WITH_NSEC_TIME))
    = Ok (bor [WITH_ACL; WITH_16BIT_UIDS; WITH_NSEC_TIME; WITH_SYMLINKS; WITH_DEVICE_NODES; WITH_FIFOS; WITH_SOCKETS]) /\
  feature_flags_normalize (2 ^ 40) = Err EOPNOTSUPP.
Proof. split; [apply only_known_mask; vm_compute; reflexivity|]. repeat split; vm_compute; reflexivity. Qed.

(** C15. Formatting a set of known flags never hits the assertion, and or-ing up what the words of the
    text parse to gives exactly the flags of the set that have names. *)
Theorem flag_names_round_trip :
  forall f, only_known_bits f ->
  exists s, with_feature_flags_format f = Ok s /\ parse_words (words s) = Ok (N.land f WITH_MASK).
Proof. exact format_total. Qed.
Print Assumptions flag_names_round_trip.
Example c15_case : with_feature_flags_format (bor [WITH_ACL; WITH_SEC_TIME; SHA512_256]) = Ok (Some "sec-time acl"%string) /\
  parse_words (words (Some "sec-time acl"%string)) = Ok (bor [WITH_SEC_TIME; WITH_ACL]).
Proof. split; vm_compute; reflexivity. Qed.

(** C16. What the encoder writes: never later than the time given, less than a granule earlier, and a
    multiple of the granule; nothing (0) if no time flag is on. *)
Theorem mtime_rounding :
  forall flags g gran t, encoder_set_feature_flags flags = Ok (g, gran) ->
  match m_granule (meaning_of flags) with
  | Some q => gran = q /\ encoder_fixup_mtime gran t <= t /\ t - encoder_fixup_mtime gran t < q /\
              encoder_fixup_mtime gran t mod q = 0
  | None => encoder_fixup_mtime gran t = 0
  end.
Proof.
  intros flags g gran t H. apply encoder_set_bits in H as [Hn Hg].
  destruct (normalize_sound flags g Hn) as (_ & _ & (_ & _ & E3 & _) & _). rewrite <- E3.
  unfold meaning_of. cbn [m_granule]. unfold encoder_fixup_mtime.
  destruct (N.testbit g 5); [subst gran; split; [reflexivity|]; apply round_bounds; lia|].
  destruct (N.testbit g 4); [subst gran; split; [reflexivity|]; apply round_bounds; lia|].
  destruct (N.testbit g 3); [subst gran; split; [reflexivity|]; apply round_bounds; lia|].
  destruct (N.testbit g 6); [subst gran; split; [reflexivity|]; apply round_bounds; lia|].
  subst gran. reflexivity.
Qed.
Print Assumptions mtime_rounding.

(** C16. The decoder accepts the time the encoder writes.  Partial: the property fails for
    microsecond granularity, see the next theorem. *)
Theorem mtime_accepted_partial :
  forall flags g gran t, encoder_set_feature_flags flags = Ok (g, gran) -> t < UINT64_MAX ->
  m_granule (meaning_of flags) <> Some 1000 ->
  validate_nsec g (encoder_fixup_mtime gran t) = true.
Proof.
  intros flags g gran t H Ht Hu. pose proof (mtime_rounding flags g gran t H) as R.
  apply encoder_set_bits in H as [Hn Hg].
  destruct (normalize_sound flags g Hn) as (_ & _ & (_ & _ & E3 & _) & _). rewrite <- E3 in R, Hu.
  rewrite validate_nsec_bits. apply andb_true_iff.
  unfold meaning_of in R, Hu. cbn [m_granule] in R, Hu.
  set (m := encoder_fixup_mtime gran t) in *. clearbody m.
  split.
  - apply negb_true_iff, N.eqb_neq. unfold UINT64_MAX in *.
    destruct (N.testbit g 5), (N.testbit g 4), (N.testbit g 3), (N.testbit g 6); lia.
  - destruct (N.testbit g 5); [reflexivity|]. destruct (N.testbit g 4); [congruence|].
    destruct (N.testbit g 3); [apply N.eqb_eq; tauto|]. destruct (N.testbit g 6); [apply N.eqb_eq; tauto|].
    apply N.eqb_eq. exact R.
Qed.
Print Assumptions mtime_accepted_partial.

(** C16 (finding). With --with=usec-time the encoder keeps 1000 ns granules but validate_nsec demands
    multiples of 1000000 ns: an archive of a file whose time is not a whole millisecond is refused. *)
Theorem mtime_accepted_refuted :
  exists flags g gran t, encoder_set_feature_flags flags = Ok (g, gran) /\ t < UINT64_MAX /\
    validate_nsec g (encoder_fixup_mtime gran t) = false.
Proof. exists WITH_USEC_TIME, WITH_USEC_TIME, 1000, 1500000001234567. repeat split; vm_compute; reflexivity. Qed.
Print Assumptions mtime_accepted_refuted.
Example c16_case : exists g gran, encoder_set_feature_flags WITH_FAT = Ok (g, gran) /\
  encoder_fixup_mtime gran 1500000001234567890 = 1500000000000000000 /\ validate_nsec g 1500000000000000000 = true.
Proof. eexists. eexists. repeat split; vm_compute; reflexivity. Qed.

(** C16. Between struct timespec and the 64 bit nanoseconds of the format nothing is lost for times
    from 1970 on. *)
Theorem timespec_round_trip :
  forall s ns, (0 <= s)%Z -> (0 <= ns < 1000000000)%Z -> (s * 1000000000 + ns < UINT64_MAX_Z)%Z ->
  nsec_to_timespec (timespec_to_nsec s ns) = (s, ns).
Proof.
  intros s ns Hs Hn Hb. unfold UINT64_MAX_Z in Hb. unfold timespec_to_nsec.
  destruct ((s =? -1) && (ns =? -1))%Z eqn:E; [lia|].
  unfold u64. rewrite !Z.mod_small by lia.
  assert (A : Z.to_N s * 1000000000 < two64) by (unfold two64; lia).
  rewrite (N.mod_small _ _ A). assert (B : Z.to_N s * 1000000000 + Z.to_N ns < UINT64_MAX) by (unfold UINT64_MAX; lia).
  rewrite N.mod_small by (unfold two64; unfold UINT64_MAX in B; lia).
  unfold nsec_to_timespec. destruct (N.eqb_spec (Z.to_N s * 1000000000 + Z.to_N ns) UINT64_MAX); [lia|].
  assert (D : (Z.to_N s * 1000000000 + Z.to_N ns) / 1000000000 = Z.to_N s) by (rewrite N.div_add_l, N.div_small by lia; lia).
  assert (M : (Z.to_N s * 1000000000 + Z.to_N ns) mod 1000000000 = Z.to_N ns) by (rewrite (N.add_comm (_ * _)), N.mod_add, N.mod_small by lia; lia).
  rewrite D, M. f_equal; lia.
Qed.
Print Assumptions timespec_round_trip.
(** C16 (finding). Times before 1970 come back as times in the 26th century. *)
Theorem timespec_round_trip_refuted :
  exists s ns, (0 <= ns < 1000000000)%Z /\ nsec_to_timespec (timespec_to_nsec s ns) = (18446744063, 709551616)%Z /\ s = (-10)%Z.
Proof. exists (-10)%Z, 0%Z. repeat split; vm_compute; try reflexivity; discriminate. Qed.
Print Assumptions timespec_round_trip_refuted.

(** C41. What is replayed on extraction: every bit is allowed by the (expanded) user mask and present in
    the (expanded) stream flags.  Partial: except for the numeric and named owners, which get switched on
    behind the user's back if ACLs are to be restored and no owner flag is both stored and allowed. *)
Theorem replay_within_mask_partial :
  forall stream mask g, only_known_bits stream ->
  determine_replay_feature_flags stream mask = Ok g ->
  let allowed k := N.testbit (feature_flags_normalize_mask stream) k && N.testbit (feature_flags_normalize_mask mask) k in
  forall k, N.testbit g k = true ->
    allowed k = true \/
    ((k = 1 \/ k = 2) /\ allowed 29 = true /\ allowed 0 = false /\ allowed 1 = false /\ allowed 2 = false).
Proof.
  intros stream mask g K H allowed k Hk.
  unfold determine_replay_feature_flags in H.
  set (t := N.land (feature_flags_normalize_mask stream) (feature_flags_normalize_mask mask)) in *.
  destruct (normalize_Ok t g H) as (Kt & Kg & B).
  pose proof (Kg k Hk) as Kk. rewrite B in Hk.
  assert (T : forall j, N.testbit t j = allowed j) by (intros j; unfold t, allowed; apply N.land_spec).
  destruct (normb_sub (N.testbit t) k Kk Hk) as [X|[(X & A29 & A0 & A1 & A2)|(-> & A27)]].
  { rewrite T in X. auto. }
  { rewrite T in A29, A0, A1, A2. auto 10. }
  rewrite T in A27. left. unfold allowed in *. apply andb_true_iff in A27 as [A27 M27]. apply andb_true_iff.
  assert (E : forall m, N.testbit (feature_flags_normalize_mask m) 27 = true -> N.testbit (feature_flags_normalize_mask m) 26 = true).
  { intros m. destruct (N.eq_dec m UINT64_MAX) as [->|E]; [vm_compute; auto|].
    rewrite !normalize_mask_bits by exact E. set (b := fun k => _). clearbody b. cbv. dbits. }
  split; apply E; assumption.
Qed.
Print Assumptions replay_within_mask_partial.

(** C41 (finding). `casync extract --with=acl' of an archive with ACLs, user names and 32 bit uids restores
    uids and user names as well although the mask excludes them. *)
Theorem replay_within_mask_refuted :
  exists stream mask g, only_known_bits stream /\
  determine_replay_feature_flags stream mask = Ok g /\
  has mask WITH_32BIT_UIDS = false /\ has mask WITH_16BIT_UIDS = false /\ has g WITH_32BIT_UIDS = true.
Proof.
  exists (bor [WITH_ACL; WITH_32BIT_UIDS; WITH_USER_NAMES]), WITH_ACL, (bor [WITH_ACL; WITH_32BIT_UIDS; WITH_USER_NAMES]).
  split; [apply only_known_mask; vm_compute; reflexivity|]. repeat split; vm_compute; reflexivity.
Qed.
Print Assumptions replay_within_mask_refuted.

(** C41. Without restriction by the user nothing stored is left out: whatever the stream stores is replayed
    at least as precisely; and a well formed stream never makes this fail. *)
Theorem replay_unrestricted :
  forall stream, only_known_bits stream ->
  exists g, determine_replay_feature_flags stream UINT64_MAX = Ok g /\
  let s := meaning_of stream in let r := meaning_of g in
  m_id_bits s <= m_id_bits r /\ (m_names s = true -> m_names r = true) /\
  match m_granule s with None => m_granule r = None | Some _ => m_granule r = Some 1 end /\
  m_perm r = m_perm s /\ m_nodump r = m_nodump s /\ m_subvolume r = m_subvolume s /\
  m_subvolume_ro r = m_subvolume_ro s /\ forall k, m_other r k = m_other s k.
Proof.
  intros stream K. unfold determine_replay_feature_flags.
  assert (Hm : stream <> UINT64_MAX) by (apply known_not_max, K).
  set (t := N.land _ _).
  assert (T : forall k, N.testbit t k = nmb (N.testbit stream) k).
  { intros k. unfold t. rewrite N.land_spec, normalize_mask_bits by exact Hm.
    assert (X : nmb (fun k0 => N.testbit stream k0 && known_bit k0) k = nmb (N.testbit stream) k).
    { apply nmb_ext. intros j. destruct (N.testbit stream j) eqn:E; [rewrite (K j E)|]; reflexivity. }
    rewrite X. destruct (nmb (N.testbit stream) k) eqn:E; [|reflexivity].
    pose proof (nmb_known (N.testbit stream) K k E) as Kk. cbn [andb].
    change (feature_flags_normalize_mask UINT64_MAX) with (N.ones 64). apply N.ones_spec_low.
    unfold known_bit in Kk. lia. }
  assert (Kt : only_known_bits t) by (intros k; rewrite T; apply nmb_known; exact K).
  pose proof Kt as K'. apply only_known_ok in K'. destruct (normalize_ok t K') as (g & E & B). exists g. split; [exact E|].
  destruct (normalize_sound t g E) as (_ & _ & (E1 & E2 & E3 & E4 & E5 & E6 & E7 & E8) & _). cbv zeta.
  rewrite E1, E2, E3, E4, E5, E6, E7. unfold meaning_of. cbn [m_id_bits m_names m_granule m_perm m_nodump m_subvolume m_subvolume_ro].
  rewrite !T. set (b := N.testbit stream) in *.
  assert (Z : forall k, m_other (meaning_of g) k = other_bit k && b k).
  { intros k. rewrite E8. unfold meaning_of, m_other. rewrite T. fold b.
    destruct (known_bit k) eqn:Kk; [|unfold other_bit; rewrite Kk; reflexivity]. clear - Kk. clearbody b.
    revert k Kk. apply (forall_known (fun k => other_bit k && nmb b k = other_bit k && b k)). each_known; cbv; reflexivity. }
  split; [|split; [|split; [|split; [|split; [|split; [|split; [|intros k; apply Z]]]]]]]; clear -b; clearbody b.
  - cbv -[N.le]. dbits; lia.
  - cbv. dbits.
  - cbv. dbits.
  - cbv. dbits.
  - cbv. dbits.
  - cbv. dbits.
  - cbv. dbits.
Qed.
Print Assumptions replay_unrestricted.
Example c41_case : determine_replay_feature_flags WITH_UNIX (bor [WITH_PERMISSIONS; WITH_SEC_TIME])
  = Ok (bor [WITH_PERMISSIONS; WITH_NSEC_TIME]).
Proof. vm_compute. reflexivity. Qed.

(** C42. chattr(1) attributes: restoring what was stored gives the attributes back, and storing what was
    restored gives the flags back; nothing else is touched.  (The mask lists the FS_*_FL bits.) *)
Theorem chattr_round_trip :
  (forall attrs, feature_flags_to_chattr (feature_flags_from_chattr attrs)
     = N.land attrs (bor [0x20; 0x80; 0x4; 0x800000; 0x40; 0x10000; 0x10; 0x8; 0x400; 0x20000000])) /\
  (forall flags, feature_flags_from_chattr (feature_flags_to_chattr flags) = N.land flags WITH_CHATTR).
Proof.
  unfold feature_flags_to_chattr, feature_flags_from_chattr. rewrite chattr_exps_ok. split; intros.
  - rewrite map_to_from by apply chattr_nodup. reflexivity.
  - rewrite map_from_to by apply chattr_nodup. reflexivity.
Qed.
Print Assumptions chattr_round_trip.
Theorem fat_attrs_round_trip :
  (forall attrs, feature_flags_to_fat_attrs (feature_flags_from_fat_attrs attrs) = N.land attrs (bor [2; 4; 32])) /\
  (forall flags, feature_flags_from_fat_attrs (feature_flags_to_fat_attrs flags) = N.land flags WITH_FAT_ATTRS).
Proof.
  unfold feature_flags_to_fat_attrs, feature_flags_from_fat_attrs. rewrite fat_exps_ok. split; intros.
  - rewrite map_to_from by apply fat_nodup. reflexivity.
  - rewrite map_from_to by apply fat_nodup. reflexivity.
Qed.
Print Assumptions fat_attrs_round_trip.
Theorem digest_type_round_trip :
  forall t flags, feature_flags_to_digest_type (N.lor (N.ldiff flags SHA512_256) (feature_flags_from_digest_type t)) = t.
Proof.
  intros t flags. unfold feature_flags_to_digest_type. rewrite (has_lit _ SHA512_256 61) by reflexivity.
  rewrite N.lor_spec, N.ldiff_spec. destruct t; cbn; rewrite ?andb_false_r; reflexivity.
Qed.
Print Assumptions digest_type_round_trip.
Example c42_case : feature_flags_from_chattr 0x61 = N.lor WITH_FLAG_APPEND WITH_FLAG_NODUMP.
Proof. vm_compute. reflexivity. Qed.
