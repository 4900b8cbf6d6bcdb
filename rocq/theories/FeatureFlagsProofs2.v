(** Proofs about names, attribute maps and time stamps. *)
From Verif Require Import Base FeatureFlags FeatureFlagsSpec FeatureFlagsProofs.
From Coq Require Import String Ascii.
Import List.
Local Open Scope N_scope.

(** * Names *)
(** Splitting a text at blanks. *)
Fixpoint split_from (cur : string) (s : string) : list string :=
  match s with
  | EmptyString => [cur]
  | String c s => if Ascii.eqb c " "%char then cur :: split_from EmptyString s
                  else split_from (cur ++ String c EmptyString)%string s
  end.
Definition words (s : option string) : list string :=
  match s with None => [] | Some s => split_from EmptyString s end.

Fixpoint no_blank (s : string) : bool :=
  match s with EmptyString => true | String c s => negb (Ascii.eqb c " "%char) && no_blank s end.

Lemma sapp_assoc a b c : ((a ++ b) ++ c = a ++ (b ++ c))%string.
Proof. induction a; cbn; congruence. Qed.
Lemma sapp_nil a : (a ++ "" = a)%string.
Proof. induction a; cbn; congruence. Qed.

Lemma split_no_blank cur w : no_blank w = true -> split_from cur w = [(cur ++ w)%string].
Proof.
  revert cur. induction w as [|c w IH]; intros cur H; cbn in *; [rewrite sapp_nil; reflexivity|].
  apply andb_true_iff in H as [Hc H]. apply negb_true_iff in Hc. rewrite Hc, IH by exact H.
  rewrite sapp_assoc. reflexivity.
Qed.

Lemma split_snoc cur s w : no_blank w = true ->
  split_from cur (s ++ " " ++ w)%string = split_from cur s ++ [w].
Proof.
  intros Hw. revert cur. induction s as [|c s IH]; intros cur; cbn [String.append split_from].
  - rewrite Ascii.eqb_refl. rewrite (split_no_blank "" w Hw). reflexivity.
  - destruct (Ascii.eqb c " "%char); cbn [app]; rewrite IH; reflexivity.
Qed.

Definition orall (l : list N) : N := fold_right N.lor 0 l.

(** or-ing up the values of the names (what --with= given once per name does, casync-tool.c). *)
Fixpoint parse_words (l : list string) : res N :=
  match l with
  | [] => Ok 0
  | w :: l => let! f := with_feature_flags_parse_one w in let! g := parse_words l in Ok (N.lor f g)
  end.

Lemma parse_words_app l w f v : parse_words l = Ok f -> with_feature_flags_parse_one w = Ok v ->
  parse_words (l ++ [w]) = Ok (N.lor f v).
Proof.
  revert f. induction l as [|x l IH]; cbn [parse_words app]; intros f H Hw.
  - inversion H. rewrite Hw. cbn. rewrite N.lor_0_r. reflexivity.
  - destruct (with_feature_flags_parse_one x) as [fx| | |]; cbn [bind] in *; try discriminate.
    destruct (parse_words l) as [g| | |]; cbn [bind] in *; try discriminate.
    rewrite (IH g eq_refl Hw). cbn [bind]. inversion H. rewrite N.lor_assoc. reflexivity.
Qed.

Lemma parse_in_sound m w f : parse_in m w = Ok f -> In (w, f) m.
Proof.
  induction m as [|[n g] m IH]; cbn; [discriminate|]. destruct (String.eqb_spec n w) as [->|].
  - intros H; inversion H; auto.
  - auto.
Qed.

(** every entry of the table is found under its own name, which has no blank. *)
Definition entry_ok (e : string * N) : bool :=
  no_blank (fst e) && match with_feature_flags_parse_one (fst e) with Ok f => f =? snd e | _ => false end.
Lemma table_ok : forallb entry_ok with_feature_map = true.
Proof. vm_compute. reflexivity. Qed.

Lemma format_loop_spec map feat s acc :
  forallb entry_ok map = true -> parse_words (words s) = Ok acc ->
  match format_loop map feat s with
  | Ok s' => parse_words (words s') = Ok (N.lor acc feat)
  | Err _ => False
  | Abort => True
  | UB => False
  end.
Proof.
  revert feat s acc. induction map as [|[n f] map IH]; intros feat s acc Hm Ha; cbn [format_loop].
  - destruct (N.eqb_spec feat 0) as [->|]; [|exact I]. rewrite N.lor_0_r. exact Ha.
  - cbn [forallb] in Hm. apply andb_true_iff in Hm as [He Hm].
    destruct (N.eqb_spec feat 0) as [->|_]; [rewrite N.lor_0_r; exact Ha|].
    destruct (N.eqb_spec (N.land feat f) f) as [E|_]; cbn [negb]; [|apply IH; assumption].
    unfold entry_ok in He. apply andb_true_iff in He as [Hb Hp]. cbn [fst snd] in *.
    destruct (with_feature_flags_parse_one n) as [v| | |] eqn:P; try discriminate. apply N.eqb_eq in Hp. subst v.
    specialize (IH (N.ldiff feat f) (Some match s with Some s0 => (s0 ++ " " ++ n)%string | None => n end) (N.lor acc f) Hm).
    replace (N.lor acc feat) with (N.lor (N.lor acc f) (N.ldiff feat f)).
    2: { rewrite <- N.lor_assoc. f_equal. rewrite <- E at 1. apply N.bits_inj. intros k.
         rewrite N.lor_spec, N.land_spec, N.ldiff_spec. destruct (N.testbit feat k), (N.testbit f k); reflexivity. }
    apply IH. cbn [words]. destruct s as [s|].
    + rewrite split_snoc by exact Hb. apply parse_words_app; assumption.
    + rewrite (split_no_blank "" n Hb). cbn in Ha. inversion Ha. apply (parse_words_app [] n 0 f); [reflexivity|exact P].
Qed.

(** The first 33 entries of the table are the single bits of WITH_MASK in order. *)
Lemma ldiff_0_sub f : N.ldiff f 0 = f. Proof. apply N.ldiff_0_r. Qed.

Lemma format_loop_singles l map feat s :
  (forall k, N.testbit feat k = true -> In k l \/ False) ->
  (exists names, map = names /\ firstn (length l) (List.map snd names) = List.map (fun k => 2 ^ k) l) ->
  NoDup l ->
  exists s', format_loop map feat s = Ok s'.
Proof.
  revert map feat s. induction l as [|k l IH]; intros map feat s Hf (names & -> & Hn) Hd.
  - assert (E : feat = 0). { apply N.bits_inj_0. intros k. destruct (N.testbit feat k) eqn:E; [|reflexivity]. destruct (Hf k E) as [[]|[]]. }
    rewrite E. destruct names as [|[n f] names]; cbn [format_loop]; rewrite N.eqb_refl; eauto.
  - destruct names as [|[n f] names]; [discriminate|]. cbn in Hn. inversion Hn as [[Hf0 Hn']]. subst f.
    cbn [format_loop]. destruct (N.eqb_spec feat 0) as [->|_]; [eauto|].
    inversion Hd as [|? ? Hk Hd']; subst.
    destruct (N.eqb_spec (N.land feat (2 ^ k)) (2 ^ k)) as [E|E]; cbn [negb].
    + apply IH; [|eauto|exact Hd']. intros j. rewrite N.ldiff_spec, N.pow2_bits_eqb. intros Hj.
      apply andb_true_iff in Hj as [Hj Hjk]. destruct (Hf j Hj) as [[->|Hin]|[]]; [rewrite N.eqb_refl in Hjk; discriminate|auto].
    + apply IH; [|eauto|exact Hd']. intros j Hj. destruct (Hf j Hj) as [[->|Hin]|[]]; [|auto]. exfalso. apply E.
      apply N.bits_inj. intros i. rewrite N.land_spec, N.pow2_bits_eqb. destruct (N.eqb_spec j i) as [->|]; [rewrite Hj; reflexivity|apply andb_false_r].
Qed.

Lemma with_mask_bits k : N.testbit WITH_MASK k = (k <=? 32).
Proof.
  change WITH_MASK with (N.ones 33). destruct (N.leb_spec k 32).
  - apply N.ones_spec_low. lia.
  - apply N.ones_spec_high. lia.
Qed.

Lemma format_total f : only_known_bits f ->
  exists s, with_feature_flags_format f = Ok s /\ parse_words (words s) = Ok (N.land f WITH_MASK).
Proof.
  intros K. unfold with_feature_flags_format. rewrite only_known_mask in K. rewrite K. cbn [N.eqb negb].
  destruct (format_loop_singles (map N.of_nat (seq 0 33)) with_feature_map (N.land f WITH_MASK) None) as [s Hs].
  - intros k Hk. left. rewrite N.land_spec, with_mask_bits in Hk. apply andb_true_iff in Hk as [_ Hk].
    apply in_map_iff. exists (N.to_nat k). split; [lia|]. apply in_seq. lia.
  - eexists. split; [reflexivity|]. vm_compute. reflexivity.
  - vm_compute. repeat (constructor; [cbn; intros X; repeat (destruct X as [X|X]; [discriminate|]); contradiction|]). constructor.
  - exists s. split; [exact Hs|].
    pose proof (format_loop_spec with_feature_map (N.land f WITH_MASK) None 0 table_ok eq_refl) as X. rewrite Hs in X. exact X.
Qed.

(** * Attribute maps *)
Definition pw (l : list (N * N)) : list (N * N) := map (fun p => (2 ^ fst p, 2 ^ snd p)) l.

Lemma map_to_bits l f j : N.testbit (map_to (pw l) f) j = existsb (fun p => N.testbit f (fst p) && (snd p =? j)) l.
Proof.
  unfold map_to. enough (H : forall acc, N.testbit (fold_left (fun f0 e => if has f (fst e) then N.lor f0 (snd e) else f0) (pw l) acc) j
    = N.testbit acc j || existsb (fun p => N.testbit f (fst p) && (snd p =? j)) l) by (rewrite H, N.bits_0; reflexivity).
  induction l as [|[a b] l IH]; intros acc; cbn [pw map fold_left existsb fst snd]; [rewrite orb_false_r; reflexivity|].
  fold (pw l). rewrite IH, has_pow. destruct (N.testbit f a); cbn [andb orb].
  - rewrite N.lor_spec, N.pow2_bits_eqb, orb_assoc. reflexivity.
  - reflexivity.
Qed.
Lemma map_from_bits l f j : N.testbit (map_from (pw l) f) j = existsb (fun p => N.testbit f (snd p) && (fst p =? j)) l.
Proof.
  unfold map_from. enough (H : forall acc, N.testbit (fold_left (fun f0 e => if has f (snd e) then N.lor f0 (fst e) else f0) (pw l) acc) j
    = N.testbit acc j || existsb (fun p => N.testbit f (snd p) && (fst p =? j)) l) by (rewrite H, N.bits_0; reflexivity).
  induction l as [|[a b] l IH]; intros acc; cbn [pw map fold_left existsb fst snd]; [rewrite orb_false_r; reflexivity|].
  fold (pw l). rewrite IH, has_pow. destruct (N.testbit f b); cbn [andb orb].
  - rewrite N.lor_spec, N.pow2_bits_eqb, orb_assoc. reflexivity.
  - reflexivity.
Qed.

Lemma bor_pow_bits l k : N.testbit (bor (map (fun a => 2 ^ a) l)) k = existsb (fun a => a =? k) l.
Proof. unfold bor. induction l; cbn [map fold_right existsb]; [apply N.bits_0|]. rewrite N.lor_spec, N.pow2_bits_eqb, IHl. reflexivity. Qed.

Lemma existsb_ext_in {A} (p q : A -> bool) l : (forall x, In x l -> p x = q x) -> existsb p l = existsb q l.
Proof. induction l; cbn; intros H; [reflexivity|]. rewrite H, IHl by auto. reflexivity. Qed.

Lemma existsb_unique (l : list (N * N)) p : NoDup (map snd l) -> In p l ->
  forall f, existsb (fun q => f q && (snd q =? snd p)) l = f p.
Proof.
  intros Hd Hi f. apply eq_true_iff_eq. rewrite existsb_exists. split.
  - intros (q & Hq & E). apply andb_true_iff in E as [E1 E2]. apply N.eqb_eq in E2.
    assert (q = p); [|congruence]. clear E1 f. induction l as [|x l IH]; [contradiction|]. cbn in Hd. inversion Hd as [|? ? Hx Hd']; subst.
    destruct Hq as [->|Hq], Hi as [->|Hi]; auto; exfalso; apply Hx; [rewrite E2|rewrite <- E2]; apply in_map; assumption.
  - intros H. exists p. rewrite H, N.eqb_refl. auto.
Qed.
Lemma existsb_unique_fst (l : list (N * N)) p : NoDup (map fst l) -> In p l ->
  forall f, existsb (fun q => f q && (fst q =? fst p)) l = f p.
Proof.
  intros Hd Hi f. apply eq_true_iff_eq. rewrite existsb_exists. split.
  - intros (q & Hq & E). apply andb_true_iff in E as [E1 E2]. apply N.eqb_eq in E2.
    assert (q = p); [|congruence]. clear E1 f. induction l as [|x l IH]; [contradiction|]. cbn in Hd. inversion Hd as [|? ? Hx Hd']; subst.
    destruct Hq as [->|Hq], Hi as [->|Hi]; auto; exfalso; apply Hx; [rewrite E2|rewrite <- E2]; apply in_map; assumption.
  - intros H. exists p. rewrite H, N.eqb_refl. auto.
Qed.

Lemma map_from_to l f : NoDup (map snd l) -> map_from (pw l) (map_to (pw l) f) = N.land f (bor (map (fun p => 2 ^ fst p) l)).
Proof.
  intros Hd. apply N.bits_inj. intros k. rewrite map_from_bits, N.land_spec.
  rewrite <- (map_map fst (fun a => 2 ^ a)), bor_pow_bits.
  rewrite (existsb_ext_in _ (fun p => N.testbit f (fst p) && (fst p =? k))).
  2: { intros p Hp. rewrite map_to_bits. f_equal. apply (existsb_unique l p Hd Hp (fun q => N.testbit f (fst q))). }
  apply eq_true_iff_eq. rewrite andb_true_iff, !existsb_exists. split.
  - intros (p & Hp & E). apply andb_true_iff in E as [E1 E2]. pose proof E2 as E3. apply N.eqb_eq in E2. subst k. split; [exact E1|].
    exists (fst p). split; [apply in_map, Hp|exact E3].
  - intros (E1 & a & Ha & E2). apply N.eqb_eq in E2. subst a. apply in_map_iff in Ha as (p & <- & Hp). exists p. rewrite E1, N.eqb_refl. auto.
Qed.
Lemma map_to_from l f : NoDup (map fst l) -> map_to (pw l) (map_from (pw l) f) = N.land f (bor (map (fun p => 2 ^ snd p) l)).
Proof.
  intros Hd. apply N.bits_inj. intros k. rewrite map_to_bits, N.land_spec.
  rewrite <- (map_map snd (fun a => 2 ^ a)), bor_pow_bits.
  rewrite (existsb_ext_in _ (fun p => N.testbit f (snd p) && (snd p =? k))).
  2: { intros p Hp. rewrite map_from_bits. f_equal. apply (existsb_unique_fst l p Hd Hp (fun q => N.testbit f (snd q))). }
  apply eq_true_iff_eq. rewrite andb_true_iff, !existsb_exists. split.
  - intros (p & Hp & E). apply andb_true_iff in E as [E1 E2]. pose proof E2 as E3. apply N.eqb_eq in E2. subst k. split; [exact E1|].
    exists (snd p). split; [apply in_map, Hp|exact E3].
  - intros (E1 & a & Ha & E2). apply N.eqb_eq in E2. subst a. apply in_map_iff in Ha as (p & <- & Hp). exists p. rewrite E1, N.eqb_refl. auto.
Qed.

Definition chattr_exps : list (N * N) :=
  [(16, 5); (17, 7); (18, 2); (19, 23); (20, 6); (21, 16); (22, 4); (23, 3); (24, 10); (25, 29)].
Definition fat_exps : list (N * N) := [(13, 1); (14, 2); (15, 5)].
Lemma chattr_exps_ok : chattr_map = pw chattr_exps. Proof. reflexivity. Qed.
Lemma fat_exps_ok : fat_attrs_map = pw fat_exps. Proof. reflexivity. Qed.
Ltac nodup := cbn; repeat (constructor; [cbn; intros X; repeat (destruct X as [X|X]; [discriminate|]); contradiction|]); constructor.
Lemma chattr_nodup : NoDup (map fst chattr_exps) /\ NoDup (map snd chattr_exps).
Proof. split; nodup. Qed.
Lemma fat_nodup : NoDup (map fst fat_exps) /\ NoDup (map snd fat_exps).
Proof. split; nodup. Qed.

(** * Time stamps *)
Lemma round_bounds g t : 0 < g -> (t / g) * g <= t /\ t - (t / g) * g < g /\ ((t / g) * g) mod g = 0.
Proof.
  intros Hg. pose proof (N.div_mod t g ltac:(lia)) as D. pose proof (N.mod_lt t g ltac:(lia)) as M.
  rewrite N.mod_mul by lia. set (q := t / g) in *. set (r := t mod g) in *. clearbody q r. repeat split; nia.
Qed.

Lemma encoder_set_bits f g gr : encoder_set_feature_flags f = Ok (g, gr) ->
  feature_flags_normalize f = Ok g /\
  gr = (if N.testbit g 5 then 1 else if N.testbit g 4 then 1000 else if N.testbit g 3 then 1000000000
        else if N.testbit g 6 then 2000000000 else UINT64_MAX).
Proof.
  unfold encoder_set_feature_flags. destruct (feature_flags_normalize f) as [h| | |] eqn:E; cbn [bind]; try discriminate.
  pose proof (normalize_Ok f h E) as (_ & K & _). apply only_known_mask in K.
  unfold time_granularity_nsec. rewrite K. cbn [N.eqb negb].
  rewrite (has_lit h WITH_NSEC_TIME 5), (has_lit h WITH_USEC_TIME 4), (has_lit h WITH_SEC_TIME 3), (has_lit h WITH_2SEC_TIME 6) by reflexivity.
  destruct (N.testbit h 5) eqn:B5; [intros X; cbv beta iota in X; assert (g = h /\ gr = 1) as [-> ->] by (injection X; intros; auto); rewrite B5; auto|].
  destruct (N.testbit h 4) eqn:B4; [intros X; cbv beta iota in X; assert (g = h /\ gr = 1000) as [-> ->] by (injection X; intros; auto); rewrite B5, B4; auto|].
  destruct (N.testbit h 3) eqn:B3; [intros X; cbv beta iota in X; assert (g = h /\ gr = 1000000000) as [-> ->] by (injection X; intros; auto); rewrite B5, B4, B3; auto|].
  destruct (N.testbit h 6) eqn:B6; intros X; cbv beta iota in X; [assert (g = h /\ gr = 2000000000) as [-> ->] by (injection X; intros; auto)|
    assert (g = h /\ gr = UINT64_MAX) as [-> ->] by (injection X; intros; auto)]; rewrite B5, B4, B3, B6; auto.
Qed.

Lemma validate_nsec_bits g t : validate_nsec g t = negb (t =? UINT64_MAX) &&
  (if N.testbit g 5 then true else if N.testbit g 4 then t mod 1000000 =? 0 else if N.testbit g 3 then t mod 1000000000 =? 0
   else if N.testbit g 6 then t mod 2000000000 =? 0 else t =? 0).
Proof.
  unfold validate_nsec.
  rewrite (has_lit g WITH_NSEC_TIME 5), (has_lit g WITH_USEC_TIME 4), (has_lit g WITH_SEC_TIME 3), (has_lit g WITH_2SEC_TIME 6) by reflexivity.
  destruct (t =? UINT64_MAX); reflexivity.
Qed.
