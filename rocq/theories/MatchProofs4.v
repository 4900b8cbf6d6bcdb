From Coq Require Import Permutation Sorted.
From Verif Require Import Base ArchiveBase FeatureFlags Locator DecoderProofs5 EncoderSpec EncoderProofs3 Match MatchSpec MatchProofs1 MatchProofs3.
Local Open Scope N_scope.

Section Normalize.
Variable qsort : forall A : Type, (A -> A -> comparison) -> list A -> list A.
Hypothesis Q : qsort_ok qsort.

Definition node_ok (k : nat) (m m' : cmatch) : Prop :=
  wf m' /\ key m' = key m /\ same (rules1 m') (rules1 m) /\ (depth m' <= k)%nat /\ normal m'.

Definition normalizes (k : nat) (f : cmatch -> res cmatch) : Prop :=
  forall m, wf m -> (depth m <= k)%nat -> exists m', f m = Ok m' /\ node_ok k m m'.

Lemma children_ok k f : normalizes k f -> forall ch, Forall wf ch -> Forall (fun c => (depth c <= k)%nat) ch ->
  exists ch', normalize_children f ch = Ok ch' /\ Forall wf ch' /\ Forall (fun c => (depth c <= k)%nat) ch' /\ Forall normal ch' /\
    same (rules ch') (rules ch) /\ length ch' = length ch.
Proof.
  intros Hf. induction ch as [|c ch IH]; intros W D; cbn [normalize_children].
  - exists []. repeat split; auto; tauto.
  - inversion W as [|? ? W1 W2]; inversion D as [|? ? D1 D2]; subst. destruct (Hf c W1 D1) as (c' & E & Wc & Kc & Rc & Dc & Nc).
    destruct (IH W2 D2) as (ch' & E' & W' & D' & N' & R' & L'). rewrite E. cbn [bind]. rewrite E'. cbn [bind]. exists (c' :: ch').
    split; [reflexivity|]. split; [constructor; assumption|]. split; [constructor; assumption|]. split; [constructor; assumption|]. split; [|cbn; congruence].
    unfold rules. cbn [flat_map]. apply same_app; assumption.
Qed.

Definition key_le (x y : cmatch) : Prop := key_cmp x y <> Gt.
Lemma key_le_lt x y z : key_cmp x y = Lt -> key_le y z -> key_cmp x z = Lt.
Proof.
  intros H1 H2. unfold key_le in H2. destruct (key_cmp y z) eqn:E; [|eapply key_trans; eassumption|congruence].
  apply key_eq in E. rewrite <- (proj2 (key_lt_eq _ _ _ E)). exact H1.
Qed.

Lemma merge_loop_ok k f : normalizes k f -> forall l cur again,
  wf cur -> (depth cur <= k)%nat -> (again = false -> normal cur) ->
  Forall wf l -> Forall (fun c => (depth c <= k)%nat) l -> Forall normal l -> StronglySorted key_le (cur :: l) ->
  exists x out, merge_loop f cur again l = Ok (x :: out) /\ Forall wf (x :: out) /\ Forall (fun c => (depth c <= k)%nat) (x :: out) /\
    Forall normal (x :: out) /\ StronglySorted key_lt (x :: out) /\ key x = key cur /\ same (rules (x :: out)) (rules (cur :: l)).
Proof.
  intros Hf. induction l as [|c l IH]; intros cur again Wc Dc Nc Wl Dl Nl S; cbn [merge_loop].
  - assert (K : exists x, (if again then f cur else Ok cur) = Ok x /\ node_ok k cur x).
    { destruct again; [apply Hf; assumption|]. exists cur. split; [reflexivity|]. split; [exact Wc|]. split; [reflexivity|]. split; [apply same_refl|]. split; [exact Dc|auto]. }
    destruct K as (x & E & Wx & Kx & Rx & Dx & Nx). rewrite E. cbn [bind]. exists x, []. split; [reflexivity|].
    split; [constructor; auto|]. split; [constructor; auto|]. split; [constructor; auto|]. split; [constructor; constructor|]. split; [exact Kx|].
    unfold rules. cbn [flat_map]. rewrite !app_nil_r. exact Rx.
  - inversion Wl as [|? ? W1 W2]; inversion Dl as [|? ? D1 D2]; inversion Nl as [|? ? N1 N2]; subst. clear Wl Dl Nl.
    inversion S as [|? ? S1 S2]; subst. inversion S1 as [|? ? S3 S4]; subst. inversion S2 as [|? ? L1 L2]; subst. clear S S2.
    destruct (merge_nodes cur c) as [m|e| |] eqn:M.
    + destruct (merge_wf cur c m Wc W1 M) as (Wm & Km & Rm & Dm).
      assert (Sm : StronglySorted key_le (m :: l)).
      { constructor; [exact S3|]. eapply Forall_impl; [|exact L2]. intros z Hz. unfold key_le. rewrite (proj1 (key_lt_eq _ _ z Km)). exact Hz. }
      destruct (IH m true Wm ltac:(rewrite Dm; lia) ltac:(discriminate) W2 D2 N2 Sm) as (x & out & E & R1 & R2 & R3 & R4 & R5 & R6).
      exists x, out. split; [exact E|]. do 4 (split; [assumption|]). split; [congruence|].
      eapply same_trans; [exact R6|]. unfold rules. cbn [flat_map]. rewrite app_assoc. apply same_app; [exact Rm|apply same_refl].
    + pose proof (merge_nodes_iff cur c) as MI. rewrite M in MI. destruct MI as (-> & Kn).
      assert (Lt1 : key_cmp cur c = Lt). { unfold key_le in L1. destruct (key_cmp cur c) eqn:E; [apply key_eq in E; contradiction|reflexivity|congruence]. }
      assert (K : exists x, (if again then f cur else Ok cur) = Ok x /\ node_ok k cur x).
      { destruct again; [apply Hf; assumption|]. exists cur. split; [reflexivity|]. split; [exact Wc|]. split; [reflexivity|]. split; [apply same_refl|]. split; [exact Dc|auto]. }
      destruct K as (x & E & Wx & Kx & Rx & Dx & Nx). rewrite E. cbn [bind].
      destruct (IH c false W1 D1 (fun _ => N1) W2 D2 N2 S1) as (y & out & E2 & R1 & R2 & R3 & R4 & R5 & R6). rewrite E2. cbn [bind].
      exists x, (y :: out). split; [reflexivity|]. split; [constructor; assumption|]. split; [constructor; assumption|]. split; [constructor; assumption|].
      assert (Lxy : key_lt x y). { unfold key_lt. rewrite (proj1 (key_lt_eq _ _ y Kx)), (proj2 (key_lt_eq _ _ cur R5)). exact Lt1. }
      split; [|split; [exact Kx|]].
      * constructor; [exact R4|]. constructor; [exact Lxy|]. inversion R4 as [|? ? _ Ho]; subst. eapply Forall_impl; [|exact Ho]. intros z Hz. eapply key_trans; [exact Lxy|exact Hz].
      * change (rules (x :: y :: out)) with (rules1 x ++ rules (y :: out)). change (rules (cur :: c :: l)) with (rules1 cur ++ rules (c :: l)). apply same_app; assumption.
    + pose proof (merge_nodes_iff cur c) as MI. rewrite M in MI. contradiction.
    + pose proof (merge_nodes_iff cur c) as MI. rewrite M in MI. contradiction.
Qed.

Lemma sorted_key l : StronglySorted (fun x y => compare_match x y <> Gt) l -> StronglySorted key_le l.
Proof.
  induction 1 as [|x l S IH F]; constructor; [exact IH|]. eapply Forall_impl; [|exact F]. intros y Hy K. apply Hy. rewrite compare_match_eq, K. reflexivity.
Qed.

Lemma normalize_ok : forall fuel m, (depth m <= fuel)%nat -> good_children m ->
  exists m', normalize_ qsort (S fuel) m = Ok m' /\ key m' = key m /\ same (rules (m_children m')) (rules (m_children m)) /\
    (depth m' <= depth m)%nat /\ normal m' /\ Forall wf (m_children m').
Proof.
  induction fuel as [|fuel IH]; intros m D G; [destruct m; cbn in D; lia|].
  assert (Hn : forall k, (k <= fuel)%nat -> normalizes k (normalize_ qsort (S fuel))).
  { intros k Hk m0 W0 D0. destruct (IH m0 ltac:(lia) (wf_good m0 W0)) as (m' & E & K & R & D' & N' & W').
    exists m'. split; [exact E|]. assert (W1 : wf m').
    { apply (normalized_wf m0); auto. apply anchored_child; [exact W'|]. intros r I. apply R in I. revert r I. apply anchored_child.
      - apply wf_good, W0.
      - inversion W0; subst; [constructor|assumption]. }
    split; [exact W1|]. split; [exact K|]. split; [apply rules1_same; auto|]. split; [lia|exact N']. }
  destruct m as [t n a d ch]. destruct G as [W G]. cbn [m_children m_type m_anchored m_directory_only] in *.
  remember (S fuel) as fu eqn:Efu. cbn [normalize_]. destruct ch as [|c0 ch0].
  { exists (CM t n a d []). split; [reflexivity|]. split; [reflexivity|]. split; [apply same_refl|]. split; [lia|]. split; [constructor; constructor|constructor]. }
  destruct (G ltac:(discriminate)) as (-> & -> & ->). cbn [mtype_eqb andb negb]. set (ch := c0 :: ch0) in *.
  assert (Hch : (1 <= length ch)%nat) by (subst ch; cbn; lia). clearbody ch. clear c0 ch0 G.
  set (k := fold_right (fun c n => Nat.max (depth c) n) O ch).
  assert (Dk : Forall (fun c => (depth c <= k)%nat) ch) by (apply fold_depth_le; lia).
  assert (Hk : (k <= fuel)%nat) by (cbn [depth] in D; fold k in D; lia). specialize (Hn k Hk).
  destruct (children_ok k _ Hn ch W Dk) as (ch1 & E1 & W1 & D1 & N1 & R1 & L1). rewrite E1. cbn [bind].
  destruct (N.leb_spec (len ch1) 1) as [Le | Gt1].
  - exists (CM INNER n true true ch1). split; [reflexivity|]. split; [reflexivity|]. split; [exact R1|]. split.
    + cbn [depth]. fold k. apply le_n_S. apply fold_depth_le. exact D1.
    + split; [|exact W1]. constructor; [exact N1|]. destruct ch1 as [|x [|y ch1]]; [constructor|constructor; constructor|]. exfalso. rewrite !len_cons in Le. lia.
  - destruct (Q cmatch compare_match ch1 orders_match) as [P S]. set (s := qsort cmatch compare_match ch1) in *. clearbody s.
    destruct s as [|cur l]; [apply Permutation_sym, Permutation_nil in P; subst; exfalso; change (@len cmatch []) with 0 in Gt1; lia|].
    assert (PF : forall T : cmatch -> Prop, Forall T ch1 -> Forall T (cur :: l)).
    { intros T F. eapply Permutation_Forall; [exact P|exact F]. }
    pose proof (PF _ W1) as W2. pose proof (PF _ D1) as D2. pose proof (PF _ N1) as N2.
    inversion W2; inversion D2; inversion N2; subst.
    destruct (merge_loop_ok k _ Hn l cur false) as (x & out & E2 & O1 & O2 & O3 & O4 & O5 & O6); auto using sorted_key.
    rewrite E2. cbn [bind]. exists (CM INNER n true true (x :: out)). split; [reflexivity|]. split; [reflexivity|]. split.
    + cbn [m_children]. eapply same_trans; [exact O6|]. eapply same_trans; [|exact R1]. intros r. symmetry. apply same_rules_perm, P.
    + split; [cbn [depth]; fold k; apply le_n_S; apply fold_depth_le; exact O2|]. split; [constructor; assumption|assumption].
Qed.

Lemma normalize_root m : wf_root (Some m) -> exists m', normalize qsort m = Ok m' /\ wf_root (Some m') /\
  same (rules (m_children m')) (rules (m_children m)) /\ normal m'.
Proof.
  intros (ch & -> & W). destruct (normalize_ok (depth (CM INNER [] true true ch)) (CM INNER [] true true ch) (le_n _)) as (m' & E & K & R & D & N0 & W').
  { split; [exact W|]. intros _. auto. }
  exists m'. split; [exact E|]. split; [|split; assumption]. destruct m' as [t n a d c]. unfold key in K. cbn in K. injection K as -> -> -> ->. exists c. auto.
Qed.

(** ** The normal form is determined by the rules *)
Lemma rule_key x r : wf x -> In r (rules1 x) -> key x = match r_components r with
    | [c] => (if r_negative r then NEGATIVE else POSITIVE, c, r_anchored r, r_directory r)
    | c :: _ => (INNER, c, true, true) | [] => key x end.
Proof.
  intros W I. inversion W as [t n a d Ht|n ch Hn Hw Ha]; subst; cbn in I.
  - destruct t; [destruct I as [<- | []]; reflexivity|destruct I as [<- | []]; reflexivity|congruence].
  - apply in_map_iff in I. destruct I as (r0 & <- & I). cbn. apply in_flat_map in I. destruct I as (c & Ic & Ir).
    rewrite Forall_forall in Hw. pose proof (rules1_components c (Hw c Ic)) as K. rewrite Forall_forall in K. destruct (K r0 Ir) as (K1 & _).
    destruct (r_components r0); [congruence|reflexivity].
Qed.

Lemma rules_find ch x r : In x ch -> In r (rules1 x) -> In r (rules ch).
Proof. intros I R. unfold rules. apply in_flat_map. exists x. auto. Qed.

Lemma key_lt_irrefl x y : key_lt x y -> key x <> key y.
Proof. intros H K. apply key_eq in K. unfold key_lt in H. congruence. Qed.

Lemma same_key_same ch x y : StronglySorted key_lt ch -> In x ch -> In y ch -> key x = key y -> x = y.
Proof.
  induction 1 as [|z ch S IH F]; [intros []|]. rewrite Forall_forall in F. intros [-> | Ix] [-> | Iy] K; auto.
  - exfalso. apply (key_lt_irrefl x y (F y Iy) K).
  - exfalso. apply (key_lt_irrefl y x (F x Ix)). congruence.
Qed.

Lemma sorted_same : forall a b, StronglySorted key_lt a -> StronglySorted key_lt b -> (forall x, In x a <-> In x b) -> a = b.
Proof.
  assert (irr : forall x, ~ key_lt x x) by (intros x H; apply (key_lt_irrefl x x H); reflexivity).
  assert (tr : forall x y z, key_lt x y -> key_lt y z -> key_lt x z) by (intros x y z; apply key_trans).
  induction a as [|x a IH]; intros b Sa Sb H.
  - destruct b as [|y b]; [reflexivity|]. exfalso. apply (H y). left. reflexivity.
  - destruct b as [|y b]; [exfalso; apply (H x); left; reflexivity|].
    inversion Sa as [|? ? Sa1 Fa]; inversion Sb as [|? ? Sb1 Fb]; subst. rewrite Forall_forall in Fa, Fb.
    assert (E : x = y).
    { destruct (proj1 (H x) (or_introl eq_refl)) as [-> | Ix]; [reflexivity|]. destruct (proj2 (H y) (or_introl eq_refl)) as [-> | Iy]; [reflexivity|].
      exfalso. apply (irr x). eapply tr; [apply Fa, Iy|apply Fb, Ix]. }
    subst y. f_equal. apply IH; [assumption|assumption|]. intros z. split; intros Iz.
    + destruct (proj1 (H z) (or_intror Iz)) as [-> | I]; [exfalso; apply (irr z), Fa, Iz|exact I].
    + destruct (proj2 (H z) (or_intror Iz)) as [-> | I]; [exfalso; apply (irr z), Fb, Iz|exact I].
Qed.

Lemma normal_unique : forall k a b, Forall (fun c => (depth c <= k)%nat) a ->
  Forall wf a -> Forall wf b -> Forall normal a -> Forall normal b -> StronglySorted key_lt a -> StronglySorted key_lt b ->
  same (rules a) (rules b) -> a = b.
Proof.
  induction k as [|k IH]; intros a b D Wa Wb Na Nb Sa Sb R.
  { destruct a as [|x a]; [|inversion D as [|? ? Dx _]; subst; destruct x; cbn in Dx; lia]. symmetry. apply rules_nil_iff; [exact Wb|]. intros r. symmetry. apply R. }
  (* every node of one list is in the other *)
  assert (G : forall x, In x a -> In x b).
  { intros x Ix. rewrite Forall_forall in D, Wa, Wb, Na, Nb. pose proof (rules1_nonempty x (Wa x Ix)) as Ne. destruct (rules1 x) as [|r lr] eqn:Er; [congruence|]. clear Ne.
    assert (Ir : In r (rules1 x)) by (rewrite Er; left; reflexivity). clear Er lr.
    pose proof (proj1 (R r) (rules_find a x r Ix Ir)) as Irb. apply in_flat_map in Irb. destruct Irb as (y & Iy & Iry).
    assert (Ck : r_components r <> []). { pose proof (rules1_components x (Wa x Ix)) as K. rewrite Forall_forall in K. apply (K r Ir). }
    assert (K : key x = key y).
    { rewrite (rule_key x r (Wa x Ix) Ir), (rule_key y r (Wb y Iy) Iry). destruct (r_components r) as [|c [|c2 cs]]; [congruence|reflexivity|reflexivity]. }
    assert (E : x = y); [|subst; exact Iy].
    specialize (D x Ix). pose proof (Wa x Ix) as Wx. pose proof (Wb y Iy) as Wy. pose proof (Na x Ix) as Nx. pose proof (Nb y Iy) as Ny.
    destruct x as [t n an d cx], y as [t' n' an' d' cy]. unfold key in K. cbn in K. injection K as <- <- <- <-. f_equal.
    inversion Wx as [? ? ? ? Ht|? ? Hn Hw Ha]; subst; [inversion Wy; subst; [reflexivity|congruence]|]. inversion Wy as [? ? ? ? Ht|? ? Hn2 Hw2 Ha2]; subst; [congruence|].
    inversion Nx as [? ? ? ? ? Fx Sx]; inversion Ny as [? ? ? ? ? Fy Sy]; subst. cbn [depth] in D. apply (IH cx cy); auto.
    - apply fold_depth_le. lia.
    - (* a rule below n belongs to the node named n, in either list *)
      intros r0. split; intros I0.
      + assert (I1 : In (under n r0) (rules1 (CM INNER n true true cx))) by (rewrite rules1_inner; apply in_map; exact I0).
        pose proof (proj1 (R _) (rules_find a _ _ Ix I1)) as I2. apply in_flat_map in I2. destruct I2 as (z & Iz & Izr).
        assert (z = CM INNER n true true cy).
        { apply (same_key_same b); auto. rewrite (rule_key z _ (Wb z Iz) Izr). cbn.
          assert (r_components r0 <> []). { apply in_flat_map in I0. destruct I0 as (c & Ic & Irc). rewrite Forall_forall in Hw. pose proof (rules1_components c (Hw c Ic)) as K. rewrite Forall_forall in K. apply (K r0 Irc). }
          destruct (r_components r0); [congruence|reflexivity]. }
        subst z. rewrite rules1_inner in Izr. apply in_map_iff in Izr. destruct Izr as (r1 & Eu & I3).
        assert (A0 : r_anchored r0 = true) by (eapply (proj1 (anchored_child cx Hw) Ha); exact I0).
        assert (A1 : r_anchored r1 = true) by (eapply (proj1 (anchored_child cy Hw2) Ha2); exact I3).
        destruct r0 as [ng0 an0 d0 c0], r1 as [ng1 an1 d1 c1]. cbn in *. injection Eu as <- <- <-. subst. exact I3.
      + assert (I1 : In (under n r0) (rules1 (CM INNER n true true cy))) by (rewrite rules1_inner; apply in_map; exact I0).
        pose proof (proj2 (R _) (rules_find b _ _ Iy I1)) as I2. apply in_flat_map in I2. destruct I2 as (z & Iz & Izr).
        assert (z = CM INNER n true true cx).
        { apply (same_key_same a); auto. rewrite (rule_key z _ (Wa z Iz) Izr). cbn.
          assert (r_components r0 <> []). { apply in_flat_map in I0. destruct I0 as (c & Ic & Irc). rewrite Forall_forall in Hw2. pose proof (rules1_components c (Hw2 c Ic)) as K. rewrite Forall_forall in K. apply (K r0 Irc). }
          destruct (r_components r0); [congruence|reflexivity]. }
        subst z. rewrite rules1_inner in Izr. apply in_map_iff in Izr. destruct Izr as (r1 & Eu & I3).
        assert (A0 : r_anchored r0 = true) by (eapply (proj1 (anchored_child cy Hw2) Ha2); exact I0).
        assert (A1 : r_anchored r1 = true) by (eapply (proj1 (anchored_child cx Hw) Ha); exact I3).
        destruct r0 as [ng0 an0 d0 c0], r1 as [ng1 an1 d1 c1]. cbn in *. injection Eu as <- <- <-. subst. exact I3. }
  apply sorted_same; [exact Sa|exact Sb|]. intros x. split; [apply G|]. intros Iy.
  (* a node of b has a rule, which some node of a has; that node is in b too, with the same key *)
  rewrite Forall_forall in Wa, Wb. pose proof (rules1_nonempty x (Wb x Iy)) as Ne. destruct (rules1 x) as [|r lr] eqn:Er; [congruence|]. clear Ne.
  assert (Ir : In r (rules1 x)) by (rewrite Er; left; reflexivity). clear Er lr.
  pose proof (proj2 (R r) (rules_find b x r Iy Ir)) as Ira. apply in_flat_map in Ira. destruct Ira as (z & Iz & Irz).
  assert (z = x); [|subst; exact Iz]. apply (same_key_same b); auto.
  rewrite (rule_key z r (Wa z Iz) Irz), (rule_key x r (Wb x Iy) Ir).
  assert (Ck : r_components r <> []). { pose proof (rules1_components z (Wa z Iz)) as K. rewrite Forall_forall in K. apply (K r Irz). }
  destruct (r_components r) as [|c [|c2 cs]]; [congruence|reflexivity|reflexivity].
Qed.
End Normalize.
