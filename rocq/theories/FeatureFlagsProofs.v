(** Proofs about the feature flag model. *)
From Verif Require Import Base FeatureFlags FeatureFlagsSpec.
From Coq Require Import String Ascii.
Import List.
Local Open Scope N_scope.

(** * Bits of the elementary steps *)
Lemma has_bits f m : has f m = true <-> exists k, N.testbit f k = true /\ N.testbit m k = true.
Proof.
  unfold has. destruct (N.eqb_spec (N.land f m) 0) as [E|E]; cbn; split; intros H; try congruence; try discriminate.
  - destruct H as (k & H1 & H2). assert (X : N.testbit (N.land f m) k = true) by (rewrite N.land_spec, H1, H2; reflexivity).
    rewrite E, N.bits_0 in X. discriminate.
  - exists (N.log2 (N.land f m)). pose proof (N.bit_log2 _ E) as X. rewrite N.land_spec in X. apply andb_true_iff in X. exact X.
Qed.

Lemma has_pow f k : has f (2 ^ k) = N.testbit f k.
Proof.
  destruct (N.testbit f k) eqn:E.
  - apply has_bits. exists k. rewrite E, N.pow2_bits_true. auto.
  - apply not_true_is_false. intros (j & H1 & H2)%has_bits. rewrite N.pow2_bits_eqb in H2.
    apply N.eqb_eq in H2. subst. congruence.
Qed.

Lemma has_lor f a b : has f (N.lor a b) = has f a || has f b.
Proof.
  destruct (has f a || has f b) eqn:E.
  - apply has_bits. apply orb_true_iff in E as [E|E]; apply has_bits in E as (k & H1 & H2); exists k;
      rewrite N.lor_spec, H1, H2, ?orb_true_r; auto.
  - apply orb_false_iff in E as [Ea Eb]. apply not_true_is_false. intros (k & H1 & H2)%has_bits.
    rewrite N.lor_spec in H2. apply orb_true_iff in H2 as [H2|H2].
    + assert (has f a = true) by (apply has_bits; eauto). congruence.
    + assert (has f b = true) by (apply has_bits; eauto). congruence.
Qed.

Lemma has_0 f : has f 0 = false. Proof. unfold has. rewrite N.land_0_r. reflexivity. Qed.
Lemma has_bor f l : has f (bor l) = existsb (has f) l.
Proof. induction l; cbn [bor fold_right existsb]; [apply has_0|]. rewrite has_lor. f_equal. exact IHl. Qed.
Lemma land_0 f m : (N.land f m =? 0) = negb (has f m).
Proof. unfold has. rewrite negb_involutive. reflexivity. Qed.

(** [bits e] : e as a predicate on bit numbers. *)
Definition drop (c : bool) (m : N) (b : N -> bool) : N -> bool := fun k => if N.testbit m k then b k && negb c else b k.
Definition add (c : bool) (m : N) (b : N -> bool) : N -> bool := fun k => if N.testbit m k then b k || c else b k.

Lemma drop_bits (c : bool) m f k : N.testbit (if c then N.ldiff f m else f) k = drop c m (N.testbit f) k.
Proof. unfold drop. destruct c; cbn; rewrite ?N.ldiff_spec; destruct (N.testbit m k), (N.testbit f k); reflexivity. Qed.
Lemma add_bits (c : bool) m f k : N.testbit (if c then N.lor f m else f) k = add c m (N.testbit f) k.
Proof. unfold add. destruct c; cbn; rewrite ?N.lor_spec; destruct (N.testbit m k), (N.testbit f k); reflexivity. Qed.

Definition normb (b : N -> bool) : N -> bool :=
  let b := add (b 29 && negb (b 0 || (b 1 || (b 2 || false)))) 0x6 b in
  let b := drop (b 1) 0x1 b in
  let b := drop (b 5) 0x58 b in
  let b := drop (b 4) 0x48 b in
  let b := drop (b 3) 0x40 b in
  let b := drop (b 29) 0x180 b in
  let b := drop (b 8) 0x80 b in
  let b := drop (b 63) 0x100000 b in
  let b := add (b 27) 0x4000000 b in
  b.

Lemma has_lit f m k : m = 2 ^ k -> has f m = N.testbit f k.
Proof. intros ->. apply has_pow. Qed.

Definition known_mask_ok (f : N) : bool := negb (f =? UINT64_MAX) && (N.ldiff f FEATURE_FLAGS_MAX =? 0).

Definition dstep (t m f : N) : N := if has f t then N.ldiff f m else f.
Definition astep (t m f : N) : N := if has f t then N.lor f m else f.
Definition step1 (f : N) : N :=
  if has f WITH_ACL && (N.land f (bor [WITH_16BIT_UIDS; WITH_32BIT_UIDS; WITH_USER_NAMES]) =? 0)
  then N.lor f (bor [WITH_32BIT_UIDS; WITH_USER_NAMES]) else f.
Definition steps (f : N) : N :=
  astep WITH_SUBVOLUME_RO WITH_SUBVOLUME
  (dstep EXCLUDE_NODUMP WITH_FLAG_NODUMP
  (dstep WITH_PERMISSIONS WITH_READ_ONLY
  (dstep WITH_ACL (bor [WITH_PERMISSIONS; WITH_READ_ONLY])
  (dstep WITH_SEC_TIME WITH_2SEC_TIME
  (dstep WITH_USEC_TIME (bor [WITH_SEC_TIME; WITH_2SEC_TIME])
  (dstep WITH_NSEC_TIME (bor [WITH_USEC_TIME; WITH_SEC_TIME; WITH_2SEC_TIME])
  (dstep WITH_32BIT_UIDS WITH_16BIT_UIDS (step1 f)))))))).

Lemma normalize_steps f : feature_flags_normalize f =
  if f =? UINT64_MAX then Err EINVAL
  else if negb (N.ldiff f FEATURE_FLAGS_MAX =? 0) then Err EOPNOTSUPP
  else Ok (steps f).
Proof. reflexivity. Qed.

Lemma dstep_bits t c m f b : t = 2 ^ c -> (forall k, N.testbit f k = b k) ->
  forall k, N.testbit (dstep t m f) k = drop (b c) m b k.
Proof. intros -> Hb k. unfold dstep. rewrite has_pow, drop_bits. unfold drop. rewrite !Hb. reflexivity. Qed.
Lemma astep_bits t c m f b : t = 2 ^ c -> (forall k, N.testbit f k = b k) ->
  forall k, N.testbit (astep t m f) k = add (b c) m b k.
Proof. intros -> Hb k. unfold astep. rewrite has_pow, add_bits. unfold add. rewrite !Hb. reflexivity. Qed.

Lemma steps_bits f : forall k, N.testbit (steps f) k = normb (N.testbit f) k.
Proof.
  unfold steps, normb. cbv zeta.
  apply astep_bits; [reflexivity|]. do 7 (apply dstep_bits; [reflexivity|]).
  intros k. unfold step1. rewrite land_0, has_bor. cbn [existsb].
  rewrite (has_lit f WITH_ACL 29), (has_lit f WITH_16BIT_UIDS 0), (has_lit f WITH_32BIT_UIDS 1), (has_lit f WITH_USER_NAMES 2) by reflexivity.
  rewrite add_bits. reflexivity.
Qed.

Lemma normalize_ok f : known_mask_ok f = true ->
  exists g, feature_flags_normalize f = Ok g /\ forall k, N.testbit g k = normb (N.testbit f) k.
Proof.
  unfold known_mask_ok. intros [H1 H2]%andb_true_iff. rewrite normalize_steps.
  apply negb_true_iff in H1. rewrite H1, H2. cbn [negb].
  eexists. split; [reflexivity|apply steps_bits].
Qed.

(** * Enumerating bit numbers *)
Definition knowns : list N := map N.of_nat (seq 0 33) ++ [60; 61; 62; 63].
Lemma known_in k : known_bit k = true -> In k knowns.
Proof.
  unfold known_bit, knowns. intros H. apply in_or_app. apply orb_true_iff in H as [H|H].
  - left. apply in_map_iff. exists (N.to_nat k). split; [lia|]. apply in_seq. lia.
  - right. cbn. lia.
Qed.
Lemma forall_known (P : N -> Prop) : Forall P knowns -> forall k, known_bit k = true -> P k.
Proof. intros H k Hk. rewrite Forall_forall in H. apply H, known_in, Hk. Qed.

Lemma max_bits k : N.testbit FEATURE_FLAGS_MAX k = known_bit k.
Proof.
  destruct (N.ltb_spec k 64) as [H|H].
  - assert (X : In k (map N.of_nat (seq 0 64))) by (apply in_map_iff; exists (N.to_nat k); split; [lia|]; apply in_seq; lia).
    revert X. vm_compute. intros X. repeat (destruct X as [<-|X]; [reflexivity|]). contradiction.
  - replace (known_bit k) with false by (unfold known_bit; lia).
    apply N.bits_above_log2. change (N.log2 FEATURE_FLAGS_MAX) with 63. lia.
Qed.

Lemma only_known_mask f : only_known_bits f <-> N.ldiff f FEATURE_FLAGS_MAX = 0.
Proof.
  split.
  - intros H. apply N.bits_inj_0. intros k. rewrite N.ldiff_spec, max_bits.
    destruct (N.testbit f k) eqn:E; [|reflexivity]. rewrite (H k E). reflexivity.
  - intros H k Hk. pose proof (f_equal (fun x => N.testbit x k) H) as X. cbn beta in X.
    rewrite N.ldiff_spec, max_bits, Hk, N.bits_0 in X. destruct (known_bit k); [reflexivity|discriminate].
Qed.

Lemma known_not_max f : only_known_bits f -> f <> UINT64_MAX.
Proof. intros H ->. specialize (H 40). vm_compute in H. specialize (H eq_refl). discriminate. Qed.

Lemma only_known_ok f : only_known_bits f <-> known_mask_ok f = true.
Proof.
  unfold known_mask_ok. rewrite andb_true_iff, negb_true_iff, N.eqb_neq, N.eqb_eq, <- only_known_mask.
  split; [intros H; split; [apply known_not_max, H|exact H]|intros [_ H]; exact H].
Qed.

Lemma ext_known f g : only_known_bits f -> only_known_bits g ->
  (forall k, known_bit k = true -> N.testbit f k = N.testbit g k) -> f = g.
Proof.
  intros Hf Hg H. apply N.bits_inj. intros k. destruct (known_bit k) eqn:K; [apply H, K|].
  destruct (N.testbit f k) eqn:F; [rewrite (Hf k F) in K; discriminate|].
  destruct (N.testbit g k) eqn:G; [rewrite (Hg k G) in K; discriminate|]. reflexivity.
Qed.

Lemma normb_known b : (forall k, b k = true -> known_bit k = true) -> forall k, normb b k = true -> known_bit k = true.
Proof.
  intros H k. destruct (known_bit k) eqn:K; [reflexivity|].
  assert (B : b k = false) by (destruct (b k) eqn:E; [rewrite (H k E) in K; discriminate|reflexivity]).
  assert (T : forall m, N.ldiff m FEATURE_FLAGS_MAX = 0 -> N.testbit m k = false).
  { intros m Hm. apply only_known_mask in Hm. destruct (N.testbit m k) eqn:E; [rewrite (Hm k E) in K; discriminate|reflexivity]. }
  unfold normb. cbv zeta. unfold drop, add.
  rewrite (T 0x6), (T 0x4000000), (T 0x1), (T 0x58), (T 0x48), (T 0x40), (T 0x180), (T 0x80), (T 0x100000) by (vm_compute; reflexivity).
  rewrite B. intros; discriminate.
Qed.

Lemma normalize_Ok f g : feature_flags_normalize f = Ok g ->
  only_known_bits f /\ only_known_bits g /\ forall k, N.testbit g k = normb (N.testbit f) k.
Proof.
  intros H. assert (K : known_mask_ok f = true).
  { revert H. rewrite normalize_steps. unfold known_mask_ok. destruct (f =? UINT64_MAX); [discriminate|].
    destruct (N.ldiff f FEATURE_FLAGS_MAX =? 0); [reflexivity|discriminate]. }
  destruct (normalize_ok f K) as (g' & E & B). rewrite E in H. inversion H; subst g'. clear H.
  apply only_known_ok in K. split; [exact K|]. split; [|exact B].
  intros k. rewrite B. apply normb_known. exact K.
Qed.

Definition meaningb (b : N -> bool) : meaning :=
  let acl_needs_ids := b 29 && negb (b 0 || b 1 || b 2) in
  Meaning (if b 1 || acl_needs_ids then 32 else if b 0 then 16 else 0)
    (b 2 || acl_needs_ids)
    (if b 5 then Some 1 else if b 4 then Some 1000 else if b 3 then Some 1000000000
     else if b 6 then Some 2000000000 else None)
    (if b 29 then 3 else if b 8 then 2 else if b 7 then 1 else 0)
    (b 20 && negb (b 63)) (b 26 || b 27) (b 27) (fun k => other_bit k && b k).

Ltac dbits := repeat match goal with
  | |- context [?b (Npos ?k)] => is_var b; destruct (b (Npos k)); cbn
  | |- context [?b 0] => is_var b; destruct (b 0); cbn
  end; try reflexivity; try congruence.

Ltac each_known := match goal with |- Forall ?P _ => let l := eval vm_compute in knowns in change (Forall P l) end;
  repeat (apply Forall_cons; [|]); [..|apply Forall_nil].

Lemma normb_meaning b : same_meaning (meaningb (normb b)) (meaningb b).
Proof.
  unfold same_meaning. split; [cbv; dbits|]. split; [cbv; dbits|]. split; [cbv; dbits|]. split; [cbv; dbits|].
  split; [cbv; dbits|]. split; [cbv; dbits|]. split; [cbv; dbits|].
  intros k. unfold meaningb, m_other. destruct (other_bit k) eqn:O; [|reflexivity].
  assert (K : known_bit k = true) by (unfold other_bit in O; apply andb_true_iff in O; tauto).
  cbn [andb]. revert k K O. apply (forall_known (fun k => other_bit k = true -> normb b k = b k)).
  each_known; cbv; intros O; first [discriminate O | reflexivity].
Qed.

Lemma normb_canonical b c : same_meaning (meaningb b) (meaningb c) ->
  forall k, known_bit k = true -> normb b k = normb c k.
Proof.
  intros (E1 & E2 & E3 & E4 & E5 & E6 & E7 & E8).
  assert (O : forall k, other_bit k = true -> b k = c k).
  { intros k Hk. specialize (E8 k). cbn in E8. rewrite Hk in E8. exact E8. }
  pose proof (O 63 eq_refl) as H63. clear E8.
  unfold meaningb in *. cbn in E1, E2, E3, E4, E5, E6, E7.
  assert (U : normb b 0 = normb c 0 /\ normb b 1 = normb c 1 /\ normb b 2 = normb c 2 /\ normb b 29 = normb c 29).
  { clear - E1 E2 E4. cbv. revert E1 E2 E4. dbits; intros; repeat split; congruence. }
  assert (T : normb b 3 = normb c 3 /\ normb b 4 = normb c 4 /\ normb b 5 = normb c 5 /\ normb b 6 = normb c 6).
  { clear - E3. cbv. revert E3. dbits; intros; repeat split; congruence. }
  assert (P : normb b 7 = normb c 7 /\ normb b 8 = normb c 8).
  { clear - E4. cbv. revert E4. dbits; intros; repeat split; congruence. }
  assert (R : normb b 20 = normb c 20 /\ normb b 26 = normb c 26 /\ normb b 27 = normb c 27).
  { clear - E5 E6 E7 H63. cbv. revert E5 E6 E7. rewrite H63. dbits; intros; repeat split; congruence. }
  apply (forall_known (fun k => normb b k = normb c k)); each_known; try tauto;
    match goal with |- normb b ?k = normb c ?k => specialize (O k eq_refl) end;
    exact O.
Qed.

(** * ca_feature_flags_are_normalized *)
Definition anb (b : N -> bool) : bool :=
  negb (b 5 && (b 4 || b 3 || b 6)) && negb (b 4 && (b 3 || b 6)) && negb (b 3 && b 6) &&
  negb (b 0 && b 1) && negb (b 8 && b 7) && negb (b 29 && (b 8 || b 7)) &&
  negb (b 29 && negb (b 0 || b 1 || b 2)) && negb (b 63 && b 20) && negb (b 27 && negb (b 26)).

Lemma land_full f a b : (N.land f (bor [2 ^ a; 2 ^ b]) =? bor [2 ^ a; 2 ^ b]) = N.testbit f a && N.testbit f b.
Proof.
  cbn [bor fold_right]. rewrite N.lor_0_r.
  apply eq_true_iff_eq. rewrite N.eqb_eq, andb_true_iff. split.
  - intros H. pose proof (f_equal (fun x => N.testbit x a) H) as X. pose proof (f_equal (fun x => N.testbit x b) H) as Y.
    cbn beta in X, Y. rewrite N.land_spec, !N.lor_spec, !N.pow2_bits_true, ?orb_true_r, ?orb_true_l in X, Y.
    rewrite orb_true_r in Y. apply andb_true_iff in X, Y. tauto.
  - intros [Ha Hb]. apply N.bits_inj. intros k. rewrite N.land_spec, N.lor_spec, !N.pow2_bits_eqb.
    destruct (N.eqb_spec a k) as [->|]; [rewrite Ha; reflexivity|].
    destruct (N.eqb_spec b k) as [->|]; [rewrite Hb; reflexivity|]. apply andb_false_r.
Qed.

Lemma are_normalized_bits f : only_known_bits f -> feature_flags_are_normalized f = Ok (anb (N.testbit f)).
Proof.
  intros K. apply only_known_ok in K. unfold known_mask_ok in K. apply andb_true_iff in K as [K1 K2].
  apply negb_true_iff in K1. unfold feature_flags_are_normalized. rewrite K1, K2. cbn [negb].
  change (bor [WITH_16BIT_UIDS; WITH_32BIT_UIDS]) with (bor [2 ^ 0; 2 ^ 1]). rewrite land_full.
  rewrite land_0, !has_bor. cbn [existsb].
  rewrite (has_lit f WITH_NSEC_TIME 5), (has_lit f WITH_USEC_TIME 4), (has_lit f WITH_SEC_TIME 3), (has_lit f WITH_2SEC_TIME 6),
    (has_lit f WITH_ACL 29), (has_lit f WITH_PERMISSIONS 8), (has_lit f WITH_READ_ONLY 7), (has_lit f EXCLUDE_NODUMP 63),
    (has_lit f WITH_FLAG_NODUMP 20), (has_lit f WITH_SUBVOLUME_RO 27), (has_lit f WITH_SUBVOLUME 26),
    (has_lit f WITH_16BIT_UIDS 0), (has_lit f WITH_32BIT_UIDS 1), (has_lit f WITH_USER_NAMES 2) by reflexivity.
  unfold anb. rewrite !orb_false_r, !orb_assoc.
  set (b := N.testbit f). clearbody b.
  repeat match goal with |- context [if ?c then Ok false else _] => destruct c eqn:?; cbn [negb andb]; rewrite ?andb_false_r; [reflexivity|] end.
  reflexivity.
Qed.

Lemma anb_normb b : anb (normb b) = true.
Proof.
  assert (H1 : negb (normb b 5 && (normb b 4 || normb b 3 || normb b 6)) && negb (normb b 4 && (normb b 3 || normb b 6)) && negb (normb b 3 && normb b 6) = true)
    by (cbv; dbits).
  assert (H2 : negb (normb b 0 && normb b 1) && negb (normb b 29 && negb (normb b 0 || normb b 1 || normb b 2)) = true) by (cbv; dbits).
  assert (H3 : negb (normb b 8 && normb b 7) && negb (normb b 29 && (normb b 8 || normb b 7)) = true) by (cbv; dbits).
  assert (H4 : negb (normb b 63 && normb b 20) && negb (normb b 27 && negb (normb b 26)) = true) by (cbv; dbits).
  unfold anb. repeat rewrite andb_true_iff in *. tauto.
Qed.

Lemma anb_fix b : anb b = true -> forall k, known_bit k = true -> normb b k = b k.
Proof.
  unfold anb. rewrite !andb_true_iff. intros [[[[[[[[H1 H2] H3] H4] H5] H6] H7] H8] H9].
  apply (forall_known (fun k => normb b k = b k)); each_known; try (cbv; reflexivity);
    try (clear - H4 H7; revert H4 H7; cbv; dbits; fail);
    try (clear - H1 H2 H3; revert H1 H2 H3; cbv; dbits; fail);
    try (clear - H5 H6; revert H5 H6; cbv; dbits; fail);
    clear - H8 H9; revert H8 H9; cbv; dbits.
Qed.

(** * ca_feature_flags_normalize_mask *)
Definition nmb (b : N -> bool) : N -> bool :=
  let b := add (b 0 || b 1) 0x3 b in
  let b := add (b 3 || b 4 || b 5 || b 6) 0x78 b in
  let b := add (b 8) 0x80 b in
  let b := add (b 29) 0x180 b in
  let b := add (b 27) 0x4000000 b in
  b.

Definition amstep (l : list N) (f : N) : N := if has f (bor l) then N.lor f (bor l) else f.
Definition msteps (m : N) : N :=
  astep WITH_SUBVOLUME_RO WITH_SUBVOLUME
  (astep WITH_ACL (bor [WITH_PERMISSIONS; WITH_READ_ONLY])
  (astep WITH_PERMISSIONS WITH_READ_ONLY
  (amstep [WITH_SEC_TIME; WITH_USEC_TIME; WITH_NSEC_TIME; WITH_2SEC_TIME]
  (amstep [WITH_16BIT_UIDS; WITH_32BIT_UIDS] (N.land m FEATURE_FLAGS_MAX))))).
Lemma normalize_mask_steps m : feature_flags_normalize_mask m = if m =? UINT64_MAX then UINT64_MAX else msteps m.
Proof. reflexivity. Qed.

Lemma normalize_mask_bits m : m <> UINT64_MAX -> forall k,
  N.testbit (feature_flags_normalize_mask m) k = nmb (fun k => N.testbit m k && known_bit k) k.
Proof.
  intros Hm. rewrite normalize_mask_steps. apply N.eqb_neq in Hm. rewrite Hm.
  unfold msteps, nmb. cbv zeta.
  do 3 (apply astep_bits; [reflexivity|]).
  assert (E0 : forall k, N.testbit (N.land m FEATURE_FLAGS_MAX) k = N.testbit m k && known_bit k)
    by (intros; rewrite N.land_spec, max_bits; reflexivity).
  set (m0 := N.land m FEATURE_FLAGS_MAX) in *. clearbody m0.
  set (b0 := fun k => N.testbit m k && known_bit k) in *.
  assert (E1 : forall k, N.testbit (amstep [WITH_16BIT_UIDS; WITH_32BIT_UIDS] m0) k = add (b0 0 || b0 1) 0x3 b0 k).
  { intros k. unfold amstep. rewrite has_bor. cbn [existsb].
    rewrite (has_lit m0 WITH_16BIT_UIDS 0), (has_lit m0 WITH_32BIT_UIDS 1) by reflexivity. rewrite add_bits, orb_false_r.
    unfold add. rewrite !E0. reflexivity. }
  intros k. unfold amstep at 1. rewrite has_bor. cbn [existsb].
  set (m1 := amstep _ m0) in *. clearbody m1. set (b1 := add (b0 0 || b0 1) 0x3 b0) in *.
  rewrite (has_lit m1 WITH_SEC_TIME 3), (has_lit m1 WITH_USEC_TIME 4), (has_lit m1 WITH_NSEC_TIME 5), (has_lit m1 WITH_2SEC_TIME 6) by reflexivity.
  rewrite add_bits, orb_false_r, !orb_assoc. unfold add. rewrite !E1. reflexivity.
Qed.

Lemma nmb_known b : (forall k, b k = true -> known_bit k = true) -> forall k, nmb b k = true -> known_bit k = true.
Proof.
  intros H k. destruct (known_bit k) eqn:K; [reflexivity|].
  assert (B : b k = false) by (destruct (b k) eqn:E; [rewrite (H k E) in K; discriminate|reflexivity]).
  assert (T : forall m, N.ldiff m FEATURE_FLAGS_MAX = 0 -> N.testbit m k = false).
  { intros m Hm. apply only_known_mask in Hm. destruct (N.testbit m k) eqn:E; [rewrite (Hm k E) in K; discriminate|reflexivity]. }
  unfold nmb. cbv zeta. unfold add.
  rewrite (T 0x3), (T 0x78), (T 0x80), (T 0x180), (T 0x4000000) by (vm_compute; reflexivity).
  rewrite B. intros; discriminate.
Qed.

Lemma normalize_mask_known m : m <> UINT64_MAX -> only_known_bits (feature_flags_normalize_mask m).
Proof.
  intros H k. rewrite (normalize_mask_bits m H). apply nmb_known. intros j [_ J]%andb_true_iff. exact J.
Qed.

Lemma add_mono c m b k : b k = true -> add c m b k = true.
Proof. unfold add. intros ->. destruct (N.testbit m k); reflexivity. Qed.
Lemma nmb_mono b : forall k, b k = true -> nmb b k = true.
Proof. intros k H. unfold nmb. cbv zeta. do 5 apply add_mono. exact H. Qed.

Lemma nmb_idem b : forall k, known_bit k = true -> nmb (nmb b) k = nmb b k.
Proof. apply (forall_known (fun k => nmb (nmb b) k = nmb b k)); each_known; cbv; dbits. Qed.

Lemma nmb_ext b c : (forall k, b k = c k) -> forall k, nmb b k = nmb c k.
Proof. intros H k. unfold nmb, add. cbv zeta. rewrite !H. reflexivity. Qed.

Lemma normb_ext b c : (forall k, b k = c k) -> forall k, normb b k = normb c k.
Proof.
  intros H k. destruct (known_bit k) eqn:K.
  - apply normb_canonical; [|exact K]. unfold same_meaning, meaningb. cbn. rewrite !H. repeat split. intros; rewrite H; reflexivity.
  - assert (T : forall m, N.ldiff m FEATURE_FLAGS_MAX = 0 -> N.testbit m k = false).
    { intros m Hm. apply only_known_mask in Hm. destruct (N.testbit m k) eqn:E; [rewrite (Hm k E) in K; discriminate|reflexivity]. }
    unfold normb. cbv zeta. unfold drop, add.
    rewrite (T 0x6), (T 0x4000000), (T 0x1), (T 0x58), (T 0x48), (T 0x40), (T 0x180), (T 0x80), (T 0x100000) by (vm_compute; reflexivity).
    apply H.
Qed.

(** What normalisation may add: bits 1 and 2 (only for ACLs without ids) and 26 (only if 27 is there). *)
Lemma normb_sub b : forall k, known_bit k = true -> normb b k = true ->
  b k = true \/ ((k = 1 \/ k = 2) /\ b 29 = true /\ b 0 = false /\ b 1 = false /\ b 2 = false) \/ (k = 26 /\ b 27 = true).
Proof.
  apply (forall_known (fun k => normb b k = true -> b k = true \/ ((k = 1 \/ k = 2) /\ b 29 = true /\ b 0 = false /\ b 1 = false /\ b 2 = false) \/ (k = 26 /\ b 27 = true))).
  each_known; try (left; assumption); intros H;
    match goal with |- b ?k = true \/ _ => destruct (b k) eqn:E; [left; reflexivity|] end; right;
    revert H; cbv; rewrite ?E; try discriminate.
  - destruct (b 29) eqn:E29, (b 0) eqn:E0, (b 2) eqn:E2; try discriminate; intros _; left; auto 10.
  - destruct (b 29) eqn:E29, (b 0) eqn:E0, (b 1) eqn:E1; try discriminate; intros _; left; auto 10.
  - destruct (b 27) eqn:E27; try discriminate. intros _. right. auto.
Qed.
