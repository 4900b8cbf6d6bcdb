From Verif Require Import Base Locator ParseSize Number Properties_Locator Properties_ParseSize.
Local Open Scope N_scope.

Lemma number_app b s d : number b (s ++ [d]) = b * number b s + digit_value d.
Proof. unfold number. rewrite fold_left_app. reflexivity. Qed.

Lemma digit_char_value d : d < 36 -> digit_value (digit_char d) = d.
Proof.
  intros H. unfold digit_char, digit_value, digit, lower, upper.
  destruct (N.ltb_spec d 10).
  - replace ((48 <=? 48 + d) && (48 + d <=? 57)) with true by (symmetry; apply andb_true_intro; split; apply N.leb_le; lia). lia.
  - replace ((48 <=? 87 + d) && (87 + d <=? 57)) with false by (symmetry; apply andb_false_iff; right; apply N.leb_gt; lia).
    replace ((97 <=? 87 + d) && (87 + d <=? 122)) with true by (symmetry; apply andb_true_intro; split; apply N.leb_le; lia). lia.
Qed.

Lemma digits_of_ok b : 2 <= b -> b <= 36 -> forall fuel n, n < 2 ^ N.of_nat fuel -> fuel <> O ->
  number b (digits_of fuel b n) = n /\ all (digit_in b) (digits_of fuel b n) /\
  exists d s, digits_of fuel b n = digit_char d :: s /\ d < b /\ (d = 0 -> n = 0 /\ s = []).
Proof.
  intros Hb Hb'. induction fuel as [|f IH]; intros n H Hf; [congruence|]. cbn [digits_of].
  assert (Hm : n mod b < b) by (apply N.mod_lt; lia).
  assert (Hdi : digit_in b (digit_char (n mod b)) = true) by (unfold digit_in; rewrite digit_char_value by lia; apply N.ltb_lt; exact Hm).
  destruct (N.ltb_spec n b) as [Hl|Hl].
  - cbn [app]. rewrite N.mod_small by lia. rewrite N.mod_small in Hdi by lia. split; [|split].
    + unfold number. cbn [fold_left]. rewrite digit_char_value by lia. lia.
    + constructor; [exact Hdi|constructor].
    + exists n, []. repeat split; auto.
  - destruct f as [|f'].
    { change (N.of_nat 1) with 1 in H. change (2 ^ 1) with 2 in H. lia. }
    assert (Hq : n / b < 2 ^ N.of_nat (S f')).
    { apply N.div_lt_upper_bound; [lia|]. rewrite Nat2N.inj_succ, N.pow_succ_r' in H.
      eapply N.lt_le_trans; [exact H|]. apply N.mul_le_mono_r. exact Hb. }
    destruct (IH (n / b) Hq ltac:(congruence)) as (Hn & Ha & d & s & He & Hd & H0).
    split; [|split].
    + rewrite number_app, Hn, digit_char_value by lia. pose proof (N.div_mod' n b). lia.
    + unfold all in *. apply Forall_app. split; [exact Ha|constructor; [exact Hdi|constructor]].
    + exists d, (s ++ [digit_char (n mod b)]). rewrite He. split; [reflexivity|]. split; [exact Hd|].
      intros Hz. destruct (H0 Hz) as [Hdv _]. apply N.div_small_iff in Hdv; lia.
Qed.

Lemma print_ok b n : 2 <= b -> b <= 36 ->
  number b (print b n) = n /\ all (digit_in b) (print b n) /\
  exists d s, print b n = digit_char d :: s /\ d < b /\ (d = 0 -> n = 0 /\ s = []).
Proof.
  intros. apply digits_of_ok; auto. rewrite Nat2N.inj_succ, N2Nat.id.
  destruct (N.eq_dec n 0) as [->|]; [reflexivity|]. apply N.log2_spec. lia.
Qed.

Lemma digit_char_iff d : d < 16 -> (digit (digit_char d) = true \/ lower (digit_char d) = true) /\ digit_char d <> 0 /\
  isspace (digit_char d) = false /\ blank (digit_char d) = false /\ digit_char d <> 45 /\ digit_char d <> 43 /\
  (digit_char d = 48 <-> d = 0).
Proof.
  intros H. unfold digit_char, isspace, blank, digit, lower.
  destruct (N.ltb_spec d 10); repeat split; lia.
Qed.

Lemma digit_in_16 c : digit_in 16 c = true -> digit c = true \/ 97 <= c <= 102 \/ 65 <= c <= 70.
Proof.
  unfold digit_in, digit_value, digit, lower, upper. intros H. apply N.ltb_lt in H.
  destruct ((48 <=? c) && (c <=? 57)) eqn:E1; [left; reflexivity|].
  destruct ((97 <=? c) && (c <=? 122)) eqn:E2.
  - apply andb_true_iff in E2. rewrite !N.leb_le in E2. lia.
  - destruct ((65 <=? c) && (c <=? 90)) eqn:E3; [|lia]. apply andb_true_iff in E3. rewrite !N.leb_le in E3. lia.
Qed.
Lemma digit_in_10 c : digit_in 10 c = true <-> digit c = true.
Proof.
  unfold digit_in, digit_value, digit, lower, upper. rewrite N.ltb_lt.
  destruct ((48 <=? c) && (c <=? 57)) eqn:E1.
  - apply andb_true_iff in E1. rewrite !N.leb_le in E1. lia.
  - destruct ((97 <=? c) && (c <=? 122)) eqn:E2.
    + apply andb_true_iff in E2. rewrite !N.leb_le in E2. split; [lia|congruence].
    + destruct ((65 <=? c) && (c <=? 90)) eqn:E3; [|split; [lia|congruence]]. apply andb_true_iff in E3. rewrite !N.leb_le in E3. split; [lia|congruence].
Qed.

Lemma strspn_none (f : N -> bool) c s : f c = false -> strspn f (c :: s) = 0.
Proof. intros H. cbn. rewrite H. reflexivity. Qed.
Lemma strspn_all_end f s : all f s -> strspn f s = len s.
Proof. intros H. rewrite <- (app_nil_r s) at 1. rewrite strspn_exact; auto. Qed.

(** What printf prints is read back. *)
Lemma strtoull_dec n : n <= UINT64_MAX -> strtoull_base 0 (dec n) = Some (n, [], false).
Proof.
  intros H. destruct (print_ok 10 n ltac:(lia) ltac:(lia)) as (Hn & Ha & d & s & He & Hd & H0). unfold dec. revert Hn Ha. rewrite He. intros Hn Ha.
  destruct (digit_char_iff d ltac:(lia)) as (_ & _ & Hsp & _ & Hm & Hp & Hz).
  unfold strtoull_base. rewrite strspn_none by exact Hsp. rewrite dropN_0. change (at_ (digit_char d :: s) 0) with (digit_char d).
  apply N.eqb_neq in Hm. apply N.eqb_neq in Hp. rewrite Hm, Hp. cbn [orb]. change (0 =? 0) with true. cbv iota.
  assert (Hhp : hex_prefix (digit_char d :: s) = false).
  { unfold hex_prefix. change (at_ (digit_char d :: s) 0) with (digit_char d). destruct (N.eqb_spec (digit_char d) 48) as [E|E]; [|reflexivity].
    destruct (H0 (proj1 Hz E)) as [_ ->]. reflexivity. }
  rewrite Hhp. change (at_ (digit_char d :: s) 0) with (digit_char d).
  destruct (N.eqb_spec (digit_char d) 48) as [E|E].
  - destruct (H0 (proj1 Hz E)) as [-> ->]. rewrite E. reflexivity.
  - change (10 =? 16) with false. cbn [andb]. rewrite strspn_all_end by exact Ha. rewrite takeN_all by lia. rewrite dropN_all by lia. rewrite Hn.
    destruct (N.eqb_spec (len (digit_char d :: s)) 0) as [E0|E0]; [rewrite len_cons in E0; lia|].
    destruct (N.ltb_spec UINT64_MAX n); [lia|reflexivity].
Qed.

Lemma strtoull_hex n : n <= UINT64_MAX -> strtoull_base 16 (hex n) = Some (n, [], false).
Proof.
  intros H. destruct (print_ok 16 n ltac:(lia) ltac:(lia)) as (Hn & Ha & d & s & He & Hd & H0). unfold hex. revert Hn Ha. rewrite He. intros Hn Ha.
  destruct (digit_char_iff d ltac:(lia)) as (_ & _ & Hsp & _ & Hm & Hp & Hz).
  unfold strtoull_base. rewrite strspn_none by exact Hsp. rewrite dropN_0. change (at_ (digit_char d :: s) 0) with (digit_char d).
  apply N.eqb_neq in Hm. apply N.eqb_neq in Hp. rewrite Hm, Hp. cbn [orb]. change (16 =? 0) with false. cbv iota.
  assert (Hhp : hex_prefix (digit_char d :: s) = false).
  { unfold hex_prefix. change (at_ (digit_char d :: s) 0) with (digit_char d). destruct (N.eqb_spec (digit_char d) 48) as [E|E]; [|reflexivity].
    destruct (H0 (proj1 Hz E)) as [_ ->]. reflexivity. }
  rewrite Hhp. change (16 =? 16) with true. cbn [andb].
  rewrite strspn_all_end by exact Ha. rewrite takeN_all by lia. rewrite dropN_all by lia. rewrite Hn.
  destruct (N.eqb_spec (len (digit_char d :: s)) 0) as [E0|E0]; [rewrite len_cons in E0; lia|].
  destruct (N.ltb_spec UINT64_MAX n); [lia|reflexivity].
Qed.

Lemma print_first b n : 2 <= b -> b <= 16 -> exists c s, print b n = c :: s /\ blank c = false /\ c <> 45.
Proof.
  intros Hb Hb'. destruct (print_ok b n ltac:(lia) ltac:(lia)) as (_ & _ & d & s & -> & Hd & _).
  destruct (digit_char_iff d ltac:(lia)) as (_ & _ & _ & Hbl & Hm & _). eauto.
Qed.

Lemma safe_atou64_dec n : n <= UINT64_MAX -> safe_atou64 (dec n) = Ok n.
Proof.
  intros H. unfold safe_atou64, safe_ato. destruct (print_first 10 n ltac:(lia) ltac:(lia)) as (c & s & E & Hb & Hm).
  assert (strspn blank (dec n) = 0) as -> by (unfold dec; rewrite E; apply strspn_none; exact Hb). rewrite dropN_0.
  rewrite strtoull_dec by exact H. unfold dec. rewrite E. change (at_ (c :: s) 0) with c. apply N.eqb_neq in Hm. rewrite Hm. reflexivity.
Qed.
Lemma safe_atox64_hex n : n <= UINT64_MAX -> safe_atox64 (hex n) = Ok n.
Proof.
  intros H. unfold safe_atox64, safe_ato. destruct (print_first 16 n ltac:(lia) ltac:(lia)) as (c & s & E & Hb & Hm).
  assert (strspn blank (hex n) = 0) as -> by (unfold hex; rewrite E; apply strspn_none; exact Hb). rewrite dropN_0.
  rewrite strtoull_hex by exact H. unfold hex. rewrite E. change (at_ (c :: s) 0) with c. apply N.eqb_neq in Hm. rewrite Hm. reflexivity.
Qed.
Lemma safe_atou_dec n : n < two32 -> safe_atou (dec n) = Ok n.
Proof.
  intros H. assert (n <= UINT64_MAX) by (unfold two32, UINT64_MAX, two64 in *; lia).
  unfold safe_atou. change (safe_ato 0 (dec n)) with (safe_atou64 (dec n)). rewrite safe_atou64_dec by assumption. cbn [bind].
  rewrite N.mod_small by exact H. rewrite N.eqb_refl. reflexivity.
Qed.

Lemma safe_ato_range b s n : safe_ato b s = Ok n -> n <= UINT64_MAX.
Proof.
  unfold safe_ato, strtoull_base. set (q1 := dropN (strspn blank s) s). set (q2 := dropN (strspn isspace q1) q1).
  set (q3 := if _ : bool then dropN 1 q2 else q2). set (b' := if b =? 0 then _ else _). set (q4 := if (b' =? 16) && hex_prefix q3 then _ else _).
  destruct (strspn (digit_in b') q4 =? 0); [discriminate|]. destruct (N.ltb_spec UINT64_MAX (number b' (takeN (strspn (digit_in b') q4) q4))); [discriminate|].
  destruct (negb _); [discriminate|]. destruct (at_ q1 0 =? 45); [discriminate|]. intros E. injection E as <-.
  destruct (at_ q2 0 =? 45); [|assumption]. pose proof (N.mod_lt (two64 - number b' (takeN (strspn (digit_in b') q4) q4)) two64 ltac:(discriminate)).
  unfold UINT64_MAX, two64 in *. lia.
Qed.
Lemma safe_atou_range s n : safe_atou s = Ok n -> n < two32.
Proof.
  unfold safe_atou. destruct (safe_ato 0 s) as [m| | |]; try discriminate. cbn [bind].
  destruct (N.eqb_spec (m mod two32) m) as [E0|]; [|discriminate]. intros E. injection E as <-. rewrite <- E0. apply N.mod_lt. discriminate.
Qed.
Lemma safe_ato_res b s : (exists n, safe_ato b s = Ok n) \/ safe_ato b s = Err EINVAL \/ safe_ato b s = Err ERANGE.
Proof.
  unfold safe_ato. destruct (strtoull_base b _) as [[[l x] e]|]; [|auto]. destruct e; [auto|]. destruct (negb _); [auto|].
  destruct (at_ _ 0 =? 45); [auto|left; eexists; reflexivity].
Qed.

(** Digits are none of the delimiters. *)
Lemma dec_digits n : all digit (dec n).
Proof.
  destruct (print_ok 10 n ltac:(lia) ltac:(lia)) as (_ & Ha & _). unfold all, dec in *. eapply Forall_impl; [|exact Ha].
  intros c. apply digit_in_10.
Qed.
Lemma hex_digits n : all (digit_in 16) (hex n).
Proof. destruct (print_ok 16 n ltac:(lia) ltac:(lia)) as (_ & Ha & _). exact Ha. Qed.
Lemma dec_not_in n c : digit c = false -> ~ In c (dec n).
Proof. intros H Hin. pose proof (dec_digits n) as Ha. unfold all in Ha. rewrite Forall_forall in Ha. rewrite (Ha c Hin) in H. discriminate. Qed.
Lemma hex_not_in n c : digit_in 16 c = false -> ~ In c (hex n).
Proof. intros H Hin. pose proof (hex_digits n) as Ha. unfold all in Ha. rewrite Forall_forall in Ha. rewrite (Ha c Hin) in H. discriminate. Qed.
