(** Proofs about Siphash.v. *)
From Verif Require Import Base Siphash SiphashSpec.
Local Open Scope N_scope.

Lemma two64_pow : two64 = 2 ^ 64.
Proof. reflexivity. Qed.
Lemma lor_add a b k : a < 2 ^ k -> N.lor a (b * 2 ^ k) = a + b * 2 ^ k.
Proof.
  intros H. assert (L : N.land a (b * 2 ^ k) = 0).
  { apply N.bits_inj. intros i. rewrite N.land_spec, N.bits_0, <- N.shiftl_mul_pow2. destruct (N.lt_ge_cases i k) as [C | C].
    - rewrite N.shiftl_spec_low by exact C. apply andb_false_r.
    - destruct (N.eq_dec a 0) as [-> | Z]; [rewrite N.bits_0; reflexivity|]. rewrite (N.bits_above_log2 a); [reflexivity|].
      eapply N.lt_le_trans; [|exact C]. apply N.log2_lt_pow2; [lia|exact H]. }
  rewrite N.add_nocarry_lxor by exact L. symmetry. apply N.lxor_lor. exact L.
Qed.
Lemma shl64_eq x k : k <= 64 -> shl64 x k = (x mod 2 ^ (64 - k)) * 2 ^ k.
Proof.
  intros H. unfold shl64. rewrite N.shiftl_mul_pow2, two64_pow. replace (2 ^ 64) with (2 ^ (64 - k) * 2 ^ k) by (rewrite <- N.pow_add_r; f_equal; lia).
  rewrite N.mul_mod_distr_r by (apply N.pow_nonzero; discriminate). reflexivity.
Qed.
Lemma rot_eq x k : x < 2 ^ 64 -> k <= 64 -> rotate_left x k = wrot k x.
Proof.
  intros H Hk. unfold rotate_left, wrot. rewrite shl64_eq by exact Hk. rewrite N.shiftr_div_pow2, N.lor_comm, lor_add; [lia|].
  apply N.div_lt_upper_bound; [apply N.pow_nonzero; discriminate|]. rewrite <- N.pow_add_r. replace (64 - k + k) with 64 by lia. exact H.
Qed.
Lemma add_eq a b : add64 a b = wadd a b.
Proof. reflexivity. Qed.
Lemma add_w a b : wadd a b < 2 ^ 64.
Proof. apply N.mod_lt. discriminate. Qed.
Lemma rot_w x k : x < 2 ^ 64 -> k <= 64 -> wrot k x < 2 ^ 64.
Proof.
  intros H Hk. unfold wrot. assert (P1 : 2 ^ (64 - k) <> 0) by (apply N.pow_nonzero; discriminate).
  pose proof (N.mod_lt x _ P1) as M. assert (D : x / 2 ^ (64 - k) < 2 ^ k).
  { apply N.div_lt_upper_bound; [exact P1|]. rewrite <- N.pow_add_r. replace (64 - k + k) with 64 by lia. exact H. }
  assert (E : 2 ^ 64 = 2 ^ (64 - k) * 2 ^ k) by (rewrite <- N.pow_add_r; f_equal; lia). rewrite E. nia.
Qed.
Lemma xor_w a b k : a < 2 ^ k -> b < 2 ^ k -> N.lxor a b < 2 ^ k.
Proof.
  intros A B. destruct (N.eq_dec (N.lxor a b) 0) as [-> | Z]; [lia|].
  destruct (N.eq_dec k 0) as [-> | Zk]. { assert (a = 0) as -> by (change (2 ^ 0) with 1 in A; lia). assert (b = 0) as -> by (change (2 ^ 0) with 1 in B; lia). exfalso. apply Z. reflexivity. }
  apply N.log2_lt_pow2; [lia|]. eapply N.le_lt_trans; [apply N.log2_lxor|].
  assert (L : forall c, c < 2 ^ k -> N.log2 c < k). { intros c C. destruct (N.eq_dec c 0) as [-> | Zc]; [change (N.log2 0) with 0; lia|]. apply N.log2_lt_pow2; [lia|exact C]. }
  pose proof (L _ A). pose proof (L _ B). lia.
Qed.

Definition vs (s : siphash) : words := (v0 s, v1 s, v2 s, v3 s).
Definition wst (s : siphash) : Prop := v0 s < 2 ^ 64 /\ v1 s < 2 ^ 64 /\ v2 s < 2 ^ 64 /\ v3 s < 2 ^ 64.

#[local] Hint Resolve add_w rot_w xor_w : w64.

Lemma round_eq s : wst s -> vs (sipround s) = sip_round (vs s) /\ wst (sipround s) /\ padding (sipround s) = padding s /\ inlen (sipround s) = inlen s.
Proof.
  destruct s as [a b c d p i]. intros (A & B & C & D). cbn [v0 v1 v2 v3] in *. unfold sipround, vs, sip_round, wst. cbn [v0 v1 v2 v3 padding inlen].
  cbv beta iota zeta delta [vs v0 v1 v2 v3 padding inlen]. change add64 with wadd.
  set (a1 := wadd a b). assert (A1 : a1 < 2 ^ 64) by apply add_w.
  set (c1 := wadd c d). assert (C1 : c1 < 2 ^ 64) by apply add_w.
  rewrite (rot_eq b 13), (rot_eq d 16), (rot_eq a1 32) by (assumption || lia).
  set (b1 := N.lxor (wrot 13 b) a1). assert (B1 : b1 < 2 ^ 64) by (apply xor_w; [apply rot_w; [assumption|lia]|assumption]).
  set (d1 := N.lxor (wrot 16 d) c1). assert (D1 : d1 < 2 ^ 64) by (apply xor_w; [apply rot_w; [assumption|lia]|assumption]).
  set (a2 := wadd (wrot 32 a1) d1). assert (A2 : a2 < 2 ^ 64) by apply add_w.
  set (c2 := wadd c1 b1). assert (C2 : c2 < 2 ^ 64) by apply add_w.
  rewrite (rot_eq b1 17), (rot_eq d1 21), (rot_eq c2 32) by (assumption || lia).
  split; [reflexivity|]. split; [|auto].
  split; [exact A2|]. split; [apply xor_w; [apply rot_w; [assumption|lia]|assumption]|]. split; [apply rot_w; [assumption|lia]|].
  apply (xor_w _ _ 64); [apply rot_w; [assumption|lia]|assumption].
Qed.

Lemma absorb_eq s m : wst s -> m < 2 ^ 64 ->
  vs (absorb s m) = sip_word (vs s) m /\ wst (absorb s m) /\ padding (absorb s m) = padding s /\ inlen (absorb s m) = inlen s.
Proof.
  intros (A & B & C & D) M. unfold absorb.
  set (s1 := mkSip (v0 s) (v1 s) (v2 s) (N.lxor (v3 s) m) (padding s) (inlen s)). assert (W1 : wst s1) by (repeat split; cbn; try assumption; apply (xor_w _ _ 64); assumption).
  destruct (round_eq s1 W1) as (E2 & W2 & P2 & I2). destruct (round_eq _ W2) as (E3 & (X & Y & Z & T) & P3 & I3).
  cbv zeta. cbn [padding inlen]. rewrite P3, P2, I3, I2. split; [|split; [|auto]].
  - unfold sip_word, vs at 2. change (v0 s, v1 s, v2 s, N.lxor (v3 s) m) with (vs s1). rewrite <- E2, <- E3. reflexivity.
  - repeat split; cbn; try assumption. apply (xor_w _ _ 64); assumption.
Qed.

Definition fin (u : siphash) : siphash := mkSip (v0 u) (v1 u) (N.lxor (v2 u) 255) (v3 u) (padding u) (inlen u).
Lemma fin_w u : wst u -> wst (fin u).
Proof. intros (A & B & C & D). unfold wst, fin. cbn [v0 v1 v2 v3]. repeat split; try assumption. apply (xor_w _ _ 64); [assumption|reflexivity]. Qed.
Local Opaque sip_round sipround.
Lemma fin_eq u : sip_final (vs u) = let '(a, b, c, d) := sip_round (sip_round (sip_round (sip_round (vs (fin u))))) in N.lxor a (N.lxor b (N.lxor c d)).
Proof. reflexivity. Qed.
Lemma finalize_eq s : siphash24_finalize s = let s := sipround (sipround (sipround (sipround (fin (absorb s (N.lor (padding s) (shl64 (inlen s) 56))))))) in
  N.lxor (N.lxor (N.lxor (v0 s) (v1 s)) (v2 s)) (v3 s).
Proof. reflexivity. Qed.
Lemma final_eq s m : wst s -> m < 2 ^ 64 -> N.lor (padding s) (shl64 (inlen s) 56) = m -> siphash24_finalize s = sip_final (sip_word (vs s) m).
Proof.
  intros W M E. rewrite finalize_eq, E. destruct (absorb_eq s m W M) as (E1 & W1 & _). rewrite <- E1, fin_eq. apply fin_w in W1.
  generalize dependent (fin (absorb s m)). intros s1 W1. clear E1.
  destruct (round_eq s1 W1) as (E2 & W2 & _). destruct (round_eq _ W2) as (E3 & W3 & _). destruct (round_eq _ W3) as (E4 & W4 & _). destruct (round_eq _ W4) as (E5 & _ & _).
  rewrite <- E2, <- E3, <- E4, <- E5. generalize (sipround (sipround (sipround (sipround s1)))). intros r. unfold vs. cbv zeta. rewrite !N.lxor_assoc. reflexivity.
Qed.
Lemma final_w s : wst s -> N.lor (padding s) (shl64 (inlen s) 56) < 2 ^ 64 -> siphash24_finalize s < 2 ^ 64.
Proof.
  intros W M. rewrite finalize_eq. destruct (absorb_eq s _ W M) as (_ & W1 & _). apply fin_w in W1.
  generalize dependent (fin (absorb s (N.lor (padding s) (shl64 (inlen s) 56)))). intros s1 W1.
  destruct (round_eq s1 W1) as (E2 & W2 & _). destruct (round_eq _ W2) as (E3 & W3 & _). destruct (round_eq _ W3) as (E4 & W4 & _). destruct (round_eq _ W4) as (E5 & (X & Y & Z & T) & _).
  cbv zeta. repeat apply (xor_w _ _ 64); assumption.
Qed.

Local Opaque absorb.
Lemma wst_pad s p : wst s -> wst (set_padding s p).
Proof. intros H. exact H. Qed.
Lemma vs_pad s p : vs (set_padding s p) = vs s.
Proof. reflexivity. Qed.
Lemma inlen_pad s p : inlen (set_padding s p) = inlen s.
Proof. reflexivity. Qed.
(** ** Bytes *)
Lemma bytes_app a b : bytes_ok (a ++ b) = true -> bytes_ok a = true /\ bytes_ok b = true.
Proof. unfold bytes_ok. rewrite forallb_app. apply andb_true_iff. Qed.
Lemma le_dec_w l : bytes_ok l = true -> le_dec l < 2 ^ (8 * len l).
Proof.
  induction l as [|x l IH]; intros H; [reflexivity|]. unfold bytes_ok in H. cbn [forallb] in H. apply andb_true_iff in H. destruct H as [H1 H2].
  specialize (IH H2). unfold byte_ok in H1. apply N.ltb_lt in H1. cbn [le_dec].
  replace (8 * len (x :: l)) with (8 + 8 * len l) by (unfold len; cbn [length]; lia). rewrite N.pow_add_r. change (2 ^ 8) with 256. nia.
Qed.
Lemma le_dec_app a b : le_dec (a ++ b) = le_dec a + 2 ^ (8 * len a) * le_dec b.
Proof.
  induction a as [|x a IH]; [change (8 * len (@nil N)) with 0; change (2 ^ 0) with 1; cbn [app le_dec]; lia|]. cbn [app le_dec]. rewrite IH.
  replace (8 * len (x :: a)) with (8 + 8 * len a) by (unfold len; cbn [length]; lia). rewrite N.pow_add_r. change (2 ^ 8) with 256. lia.
Qed.
Lemma word_one l r ws : length l = 8%nat -> words_of r ws -> words_of (l ++ r) (le_dec l :: ws).
Proof.
  intros H W. do 8 (destruct l as [|? l]; [discriminate H|]). destruct l; [|discriminate H]. cbn [app].
  match goal with |- words_of _ (le_dec [?a0;?a1;?a2;?a3;?a4;?a5;?a6;?a7] :: _) =>
    replace (le_dec [a0;a1;a2;a3;a4;a5;a6;a7]) with (a0 + 2^8 * a1 + 2^16 * a2 + 2^24 * a3 + 2^32 * a4 + 2^40 * a5 + 2^48 * a6 + 2^56 * a7) end.
  - constructor. exact W.
  - cbn [le_dec]. lia.
Qed.
Lemma words_app a u : words_of a u -> forall b v, words_of b v -> words_of (a ++ b) (u ++ v).
Proof. induction 1; intros; cbn [app]; [assumption|]. constructor. auto. Qed.
Lemma words_len l ws : words_of l ws -> exists q, length l = (8 * q)%nat.
Proof. induction 1 as [|? ? ? ? ? ? ? ? ? ? ? [q IH]]; [exists 0%nat; reflexivity|]. exists (S q). cbn [length]. lia. Qed.

Lemma read_ok p : (8 <= length p)%nat -> read_le64 p = Ok (le_dec (firstn 8 p)).
Proof. intros H. unfold read_le64. destruct (N.ltb_spec (len p) 8) as [C | _]; [unfold len in C; lia|]. reflexivity. Qed.
Lemma len_land x : N.land x 7 = x mod 8.
Proof. change 7 with (N.ones 3). rewrite N.land_ones. reflexivity. Qed.

(** ** The loops *)
Lemma fill_spec : forall inp tl, (length tl <= 8)%nat -> bytes_ok tl = true -> bytes_ok inp = true ->
  let c := Nat.min (8 - length tl) (length inp) in
  fill inp (len tl) (le_dec tl) = (skipn c inp, len tl + N.of_nat c, le_dec (tl ++ firstn c inp)).
Proof.
  induction inp as [|b inp IH]; intros tl Ht Bt Bi c.
  { unfold c. cbn [length]. rewrite Nat.min_0_r. cbn [fill skipn firstn]. rewrite app_nil_r. f_equal. f_equal. lia. }
  cbn [fill]. pose proof (le_dec_w _ Bt) as W. unfold bytes_ok in Bi. cbn [forallb] in Bi. apply andb_true_iff in Bi. destruct Bi as [B1 B2].
  destruct (N.ltb_spec (len tl) 8) as [C | C].
  - assert (L : len (tl ++ [b]) = len tl + 1) by (unfold len; rewrite app_length; cbn [length]; lia).
    assert (E : N.lor (le_dec tl) (shl64 b (len tl * 8)) = le_dec (tl ++ [b])).
    { assert (E8 : 2 ^ (64 - len tl * 8) >= 256). { change 256 with (2 ^ 8). apply N.le_ge, N.pow_le_mono_r; [discriminate|lia]. }
      rewrite shl64_eq by lia. unfold byte_ok in B1. apply N.ltb_lt in B1. rewrite N.mod_small by lia.
      rewrite lor_add by (replace (len tl * 8) with (8 * len tl) by lia; exact W). rewrite le_dec_app. cbn [le_dec]. replace (len tl * 8) with (8 * len tl) by lia. lia. }
    rewrite E. rewrite <- L. rewrite IH.
    + assert (EC : c = S (Nat.min (8 - length (tl ++ [b])) (length inp))).
      { unfold c. rewrite app_length. cbn [length]. clear - C. unfold len in C. lia. }
      rewrite EC. cbn [skipn firstn]. rewrite <- app_assoc. cbn [app]. rewrite L. f_equal. f_equal. lia.
    + rewrite app_length. cbn [length]. unfold len in C. lia.
    + unfold bytes_ok in *. rewrite forallb_app, Bt. cbn [forallb]. rewrite B1. reflexivity.
    + exact B2.
  - assert (EC : c = 0%nat) by (unfold c; unfold len in C; lia). rewrite EC. cbn [skipn firstn]. rewrite app_nil_r. f_equal. f_equal. lia.
Qed.

Lemma bulk_spec : forall q fuel inp s, (8 * q <= length inp)%nat -> (q <= fuel)%nat -> bytes_ok inp = true -> wst s ->
  exists s' ws, bulk fuel inp (8 * N.of_nat q) s = Ok (skipn (8 * q) inp, s') /\ words_of (firstn (8 * q) inp) ws /\
    vs s' = fold_left sip_word ws (vs s) /\ wst s' /\ padding s' = padding s /\ inlen s' = inlen s.
Proof.
  induction q as [|q IH]; intros fuel inp s H F B W.
  { exists s, []. destruct fuel; cbn [bulk Nat.mul skipn firstn fold_left]; repeat split; try apply W; constructor. }
  destruct fuel as [|fuel]; [lia|].
  set (w := firstn 8 inp). set (r := skipn 8 inp). assert (E : inp = w ++ r) by (symmetry; apply firstn_skipn).
  assert (Lw : length w = 8%nat) by (unfold w; rewrite firstn_length; lia).
  assert (Lr : length r = (length inp - 8)%nat) by (unfold r; apply skipn_length).
  rewrite E in B. destruct (bytes_app _ _ B) as [Bw Br]. pose proof (le_dec_w _ Bw) as M. replace (8 * len w) with 64 in M by (unfold len; rewrite Lw; reflexivity).
  destruct (absorb_eq s _ W M) as (E1 & W1 & P1 & I1).
  destruct (IH fuel r (absorb s (le_dec w)) ltac:(lia) ltac:(lia) Br W1) as (s' & ws & R1 & R2 & R3 & R4 & R5 & R6).
  exists s', (le_dec w :: ws).
  assert (Ex : (8 * S q)%nat = (length w + 8 * q)%nat) by lia.
  split; [|split; [|split; [|split; [|split]]]].
  - cbn [bulk]. destruct (N.eqb_spec (8 * N.of_nat (S q)) 0) as [Z | _]; [lia|]. rewrite read_ok by lia. cbn [bind].
    fold w. unfold dropN. change (N.to_nat 8) with 8%nat. fold r. replace (8 * N.of_nat (S q) - 8) with (8 * N.of_nat q) by lia. rewrite R1.
    rewrite E at 1. rewrite Ex, skipn_app. rewrite (skipn_all2 w) by lia. cbn [app]. replace (length w + 8 * q - length w)%nat with (8 * q)%nat by lia. reflexivity.
  - rewrite E, Ex, firstn_app_2. apply word_one; assumption.
  - cbn [fold_left]. rewrite <- E1. exact R3.
  - exact R4.
  - congruence.
  - congruence.
Qed.

Lemma tail_spec : forall k inp h, (k <= length inp)%nat -> (k < 8)%nat -> bytes_ok inp = true ->
  tail k inp (h * 2 ^ (8 * N.of_nat k)) = Ok (le_dec (firstn k inp) + h * 2 ^ (8 * N.of_nat k)).
Proof.
  induction k as [|k IH]; intros inp h H K B; [reflexivity|]. cbn [tail].
  destruct (nth_error inp k) as [b|] eqn:E; [|apply nth_error_None in E; lia].
  destruct (nth_error_split _ _ E) as (l1 & l2 & E1 & E2).
  assert (Bb : b < 256). { rewrite E1 in B. destruct (bytes_app _ _ B) as [_ B2]. unfold bytes_ok in B2. cbn [forallb] in B2. apply andb_true_iff in B2. destruct B2 as [B2 _]. apply N.ltb_lt. exact B2. }
  assert (S1 : shl64 b (8 * N.of_nat k) = b * 2 ^ (8 * N.of_nat k)).
  { assert (E8 : 2 ^ (64 - 8 * N.of_nat k) >= 256). { change 256 with (2 ^ 8). apply N.le_ge, N.pow_le_mono_r; [discriminate|lia]. }
    rewrite shl64_eq by lia. rewrite N.mod_small by lia. reflexivity. }
  assert (P : 2 ^ (8 * N.of_nat (S k)) = 256 * 2 ^ (8 * N.of_nat k)).
  { replace (8 * N.of_nat (S k)) with (8 + 8 * N.of_nat k) by lia. rewrite N.pow_add_r. reflexivity. }
  rewrite S1, N.lor_comm, lor_add by (rewrite P; pose proof (N.pow_nonzero 2 (8 * N.of_nat k) ltac:(discriminate)); nia).
  replace (b * 2 ^ (8 * N.of_nat k) + h * 2 ^ (8 * N.of_nat (S k))) with ((b + h * 256) * 2 ^ (8 * N.of_nat k)) by (rewrite P; lia).
  rewrite IH by (try exact B; lia). f_equal.
  assert (F : firstn (S k) inp = firstn k inp ++ [b]).
  { rewrite E1, <- E2. replace (S (length l1)) with (length l1 + 1)%nat by lia. rewrite firstn_app_2. rewrite firstn_app, firstn_all, Nat.sub_diag. cbn [firstn]. rewrite app_nil_r. reflexivity. }
  rewrite F, le_dec_app. replace (len (firstn k inp)) with (N.of_nat k) by (unfold len; rewrite firstn_length; lia). cbn [le_dec]. rewrite P. lia.
Qed.

(** ** The state after some input *)
Record fed (st : words) (m : list N) (s : siphash) : Prop := mkFed {
  fd_bytes : bytes_ok m = true;
  fd_split : exists full tl ws, m = full ++ tl /\ words_of full ws /\ (length tl < 8)%nat /\ vs s = fold_left sip_word ws st /\ padding s = le_dec tl;
  fd_w : wst s;
  fd_inlen : inlen s = len m mod two64 }.

Lemma fed_left st m s full tl ws : fed st m s -> m = full ++ tl -> words_of full ws -> (length tl < 8)%nat -> inlen s mod 8 = len tl.
Proof.
  intros F E W L. rewrite (fd_inlen _ _ _ F), E. destruct (words_len _ _ W) as [q Q]. unfold len. rewrite app_length, Q. unfold two64. lia.
Qed.

(** What the second half of siphash24_compress() does, from whole words on. *)
Lemma rest_spec st full0 ws0 inp s : bytes_ok inp = true -> wst s -> words_of full0 ws0 -> vs s = fold_left sip_word ws0 st -> padding s = 0 -> bytes_ok full0 = true ->
  inlen s = len (full0 ++ inp) mod two64 ->
  exists s', (let k := inlen s mod 8 in
    if len inp <? k then UB else
    let! (inp, s) := bulk (length inp) inp (len inp - k) s in
    let! p := tail (N.to_nat (N.land (inlen s) 7)) inp (padding s) in
    Ok (set_padding s p)) = Ok s' /\ fed st (full0 ++ inp) s'.
Proof.
  intros B W W0 V P B0 Hi. cbv zeta. destruct (words_len _ _ W0) as [q0 Q0].
  set (q := Nat.div (length inp) 8). pose proof (Nat.div_mod (length inp) 8 ltac:(discriminate)) as DM. fold q in DM. pose proof (Nat.mod_upper_bound (length inp) 8 ltac:(discriminate)) as MU.
  set (k := Nat.modulo (length inp) 8) in *.
  assert (Ek : inlen s mod 8 = N.of_nat k). { rewrite Hi. unfold len. rewrite app_length, Q0. clear - DM MU. unfold two64. lia. }
  rewrite Ek. destruct (N.ltb_spec (len inp) (N.of_nat k)) as [C | _]; [exfalso; clear - C DM; unfold len in C; lia|].
  replace (len inp - N.of_nat k) with (8 * N.of_nat q) by (clear - DM; unfold len; lia).
  destruct (bulk_spec q (length inp) inp s ltac:(clear - DM; lia) ltac:(clear - DM; lia) B W) as (s1 & ws & R1 & R2 & R3 & R4 & R5 & R6).
  rewrite R1. cbn [bind]. rewrite len_land, R6, Ek, Nat2N.id, R5, P.
  assert (E : inp = firstn (8 * q) inp ++ skipn (8 * q) inp) by (symmetry; apply firstn_skipn).
  pose proof B as B'. rewrite E in B'. destruct (bytes_app _ _ B') as [_ Bt].
  assert (Lt : length (skipn (8 * q) inp) = k) by (rewrite skipn_length; clear - DM; lia).
  replace 0 with (0 * 2 ^ (8 * N.of_nat k)) by reflexivity. rewrite tail_spec by (try exact Bt; clear - Lt MU; lia). cbn [bind].
  rewrite N.mul_0_l, N.add_0_r. rewrite <- Lt, firstn_all.
  exists (set_padding s1 (le_dec (skipn (8 * q) inp))). split; [reflexivity|]. constructor.
  - unfold bytes_ok in *. rewrite forallb_app, B0, B. reflexivity.
  - exists (full0 ++ firstn (8 * q) inp), (skipn (8 * q) inp), (ws0 ++ ws). rewrite <- app_assoc, firstn_skipn. split; [reflexivity|].
    split; [apply words_app; assumption|]. split; [clear - Lt MU; lia|]. split; [|reflexivity]. rewrite fold_left_app, <- V, <- R3. reflexivity.
  - exact R4.
  - cbn [set_padding inlen]. rewrite R6. exact Hi.
Qed.

Lemma compress_fed st m s p : fed st m s -> bytes_ok p = true -> exists s', siphash24_compress p s = Ok s' /\ fed st (m ++ p) s'.
Proof.
  intros F Bp. pose proof F as [Bm (full & tl & ws & E & W & L & V & P) Wst Hi]. pose proof (fed_left _ _ _ _ _ _ F E W L) as Lf.
  assert (Hi' : add64 (inlen s) (len p) = len (m ++ p) mod two64).
  { unfold add64. rewrite Hi. rewrite N.add_mod_idemp_l by discriminate. unfold len. rewrite app_length. f_equal. lia. }
  rewrite E in Bm. destruct (bytes_app _ _ Bm) as [Bf Bt].
  unfold siphash24_compress. rewrite len_land, Lf. set (s1 := set_inlen s (add64 (inlen s) (len p))).
  destruct (N.ltb_spec 0 (len tl)) as [C | C].
  - change (padding s1) with (padding s). rewrite P. rewrite fill_spec by (try assumption; clear - L; lia).
    set (c := Nat.min (8 - length tl) (length p)).
    assert (Ls : length (skipn c p) = (length p - c)%nat) by apply skipn_length.
    assert (Lc : length (tl ++ firstn c p) = (length tl + c)%nat) by (rewrite app_length, firstn_length, (Nat.min_l c) by (unfold c; apply Nat.le_min_r); reflexivity).
    pose proof Bp as Bp'. rewrite <- (firstn_skipn c p) in Bp'. destruct (bytes_app _ _ Bp') as [Bc Br].
    assert (Btc : bytes_ok (tl ++ firstn c p) = true) by (unfold bytes_ok in *; rewrite forallb_app, Bt, Bc; reflexivity).
    destruct ((len (skipn c p) =? 0) && (len tl + N.of_nat c <? 8))%bool eqn:Z.
    + apply andb_true_iff in Z. destruct Z as [Z1 Z2]. apply N.eqb_eq in Z1. apply N.ltb_lt in Z2. cbn [bind].
      assert (EP : firstn c p = p) by (apply firstn_all2; clear - Z1 Ls; unfold len in Z1; lia). 
      eexists. split; [reflexivity|]. constructor.
      * rewrite E. unfold bytes_ok in *. rewrite !forallb_app, Bf, Bt, Bp. reflexivity.
      * exists full, (tl ++ p), ws. rewrite E, <- app_assoc. split; [reflexivity|]. split; [exact W|]. rewrite EP in *. split; [rewrite Lc; clear - Z2; unfold len in Z2; lia|]. split; [exact V|reflexivity].
      * exact Wst.
      * exact Hi'.
    + cbn [bind].
      assert (L8 : (length tl + c = 8)%nat).
      { apply andb_false_iff in Z. assert (Cl : (c <= 8 - length tl)%nat /\ (c <= length p)%nat /\ (c = 8 - length tl \/ c = length p)%nat) by (clear; subst c; lia). clearbody c. destruct Z as [Z | Z]; [apply N.eqb_neq in Z|apply N.ltb_ge in Z]; clear - Z Cl Ls L; unfold len in Z; lia. }
      assert (M : le_dec (tl ++ firstn c p) < 2 ^ 64).
      { pose proof (le_dec_w _ Btc) as M. replace (8 * len (tl ++ firstn c p)) with 64 in M by (unfold len; rewrite Lc, L8; reflexivity). exact M. }
      destruct (absorb_eq (set_padding s1 (le_dec (tl ++ firstn c p))) _ Wst M) as (E1 & W1 & P1 & I1).
      destruct (rest_spec st (full ++ tl ++ firstn c p) (ws ++ [le_dec (tl ++ firstn c p)]) (skipn c p)
        (set_padding (absorb (set_padding s1 (le_dec (tl ++ firstn c p))) (le_dec (tl ++ firstn c p))) 0)) as (s' & R1 & R2).
      * exact Br.
      * apply wst_pad. exact W1.
      * apply words_app; [exact W|]. rewrite <- (app_nil_r (tl ++ firstn c p)) at 1. apply word_one; [rewrite Lc; exact L8|constructor].
      * rewrite fold_left_app, <- V. cbn [fold_left]. rewrite vs_pad. exact E1.
      * reflexivity.
      * unfold bytes_ok in *. rewrite forallb_app, Bf, Btc. reflexivity.
      * rewrite inlen_pad, I1, inlen_pad. unfold s1. cbn [set_inlen inlen]. rewrite Hi'. rewrite E. rewrite <- !app_assoc, firstn_skipn. reflexivity.
      * exists s'. split; [exact R1|]. rewrite E. rewrite <- (firstn_skipn c p) at 1. rewrite <- !app_assoc in *. exact R2.
  - assert (tl = []) as -> by (destruct tl; [reflexivity|unfold len in C; cbn [length] in C; lia]). rewrite app_nil_r in E. subst full. cbn [bind].
    apply (rest_spec st m ws p s1); try assumption.
Qed.

Lemma all_fed st : forall ps m s, fed st m s -> Forall (fun p => bytes_ok p = true) ps -> exists s', compress_all ps s = Ok s' /\ fed st (m ++ concat ps) s'.
Proof.
  induction ps as [|p ps IH]; intros m s F B; [exists s; cbn; rewrite app_nil_r; auto|]. inversion B as [|? ? B1 B2]; subst.
  destruct (compress_fed _ _ _ _ F B1) as (s1 & E1 & F1). destruct (IH _ _ F1 B2) as (s2 & E2 & F2).
  exists s2. cbn [compress_all concat]. rewrite E1. cbn [bind]. rewrite app_assoc. auto.
Qed.

Lemma init_fed key : length key = 16%nat -> bytes_ok key = true ->
  exists k0 k1 s, words_of key [k0; k1] /\ siphash24_init key = Ok s /\ fed (sip_start k0 k1) [] s.
Proof.
  intros L B. set (a := firstn 8 key). set (c := skipn 8 key). assert (E : key = a ++ c) by (symmetry; apply firstn_skipn).
  assert (La : length a = 8%nat) by (unfold a; rewrite firstn_length; lia). assert (Lc : length c = 8%nat) by (unfold c; rewrite skipn_length; lia).
  rewrite E in B. destruct (bytes_app _ _ B) as [Ba Bc].
  pose proof (le_dec_w _ Ba) as Ma. replace (8 * len a) with 64 in Ma by (unfold len; rewrite La; reflexivity).
  pose proof (le_dec_w _ Bc) as Mc. replace (8 * len c) with 64 in Mc by (unfold len; rewrite Lc; reflexivity).
  exists (le_dec a), (le_dec c). eexists. split; [|split].
  - rewrite E. apply word_one; [exact La|]. rewrite <- (app_nil_r c) at 1. apply word_one; [exact Lc|constructor].
  - unfold siphash24_init. rewrite read_ok by lia. cbn [bind]. unfold dropN. change (N.to_nat 8) with 8%nat. fold a c. rewrite read_ok by lia. cbn [bind].
    rewrite (firstn_all2 (n := 8) c) by lia. reflexivity.
  - constructor.
    + reflexivity.
    + exists [], [], []. split; [reflexivity|]. split; [constructor|]. split; [cbn [length]; lia|]. split; [|reflexivity].
      unfold vs, sip_start. cbn [v0 v1 v2 v3 fold_left]. rewrite !(N.lxor_comm (le_dec _)). reflexivity.
    + unfold wst. cbn [v0 v1 v2 v3]. split; [|split; [|split]]; apply (xor_w _ _ 64); first [exact Ma | exact Mc | reflexivity].
    + reflexivity.
Qed.

Lemma fed_final st m s : fed st m s -> siphash24_finalize s < 2 ^ 64 /\ exists ws, words_of (padded m) ws /\ siphash24_finalize s = sip_final (fold_left sip_word ws st).
Proof.
  intros F. pose proof F as [Bm (full & tl & ws & E & W & L & V & P) Wst Hi]. rewrite E in Bm. destruct (bytes_app _ _ Bm) as [Bf Bt].
  destruct (words_len _ _ W) as [q Q].
  set (lst := tl ++ repeat 0 (7 - length tl) ++ [len m mod 256]).
  assert (Ll : length lst = 8%nat) by (unfold lst; rewrite !app_length, repeat_length; cbn [length]; lia).
  assert (Bl : bytes_ok lst = true).
  { unfold lst, bytes_ok in *. rewrite !forallb_app, Bt. cbn [forallb]. assert (R : forall n, forallb byte_ok (repeat 0 n) = true) by (induction n; [reflexivity|exact IHn]).
    rewrite R. unfold byte_ok. destruct (N.ltb_spec (len m mod 256) 256) as [_ | C]; [reflexivity|]. pose proof (N.mod_lt (len m) 256 ltac:(discriminate)). lia. }
  pose proof (le_dec_w _ Bl) as M. replace (8 * len lst) with 64 in M by (unfold len; rewrite Ll; reflexivity).
  assert (Rz : forall n x, le_dec (repeat 0 n ++ [x]) = x * 2 ^ (8 * N.of_nat n)).
  { induction n as [|n IH]; intros x; [cbn [repeat app le_dec]; change (2 ^ (8 * N.of_nat 0)) with 1; lia|]. cbn [repeat app le_dec]. rewrite IH.
    replace (8 * N.of_nat (S n)) with (8 + 8 * N.of_nat n) by lia. rewrite N.pow_add_r. change (2 ^ 8) with 256. lia. }
  assert (Lw : N.lor (padding s) (shl64 (inlen s) 56) = le_dec lst).
  { rewrite P, Hi. rewrite shl64_eq by lia. change (64 - 56) with 8. change (2 ^ 8) with 256.
    replace ((len m mod two64) mod 256) with (len m mod 256) by (clear; unfold two64; lia).
    rewrite lor_add.
    - unfold lst. rewrite le_dec_app, Rz. replace (2 ^ 56) with (2 ^ (8 * len tl) * 2 ^ (8 * N.of_nat (7 - length tl))); [lia|].
      rewrite <- N.pow_add_r. f_equal. unfold len. lia.
    - pose proof (le_dec_w _ Bt) as Mt. eapply N.lt_le_trans; [exact Mt|]. apply N.pow_le_mono_r; [discriminate|]. unfold len. lia. }
  split; [apply final_w; [exact Wst|rewrite Lw; exact M]|].
  exists (ws ++ [le_dec lst]). split.
  - assert (EP : padded m = full ++ lst).
    { unfold padded, lst. rewrite E at 1. rewrite <- app_assoc. do 3 f_equal. rewrite E, app_length, Q. f_equal.
      replace (8 * q + length tl)%nat with (length tl + q * 8)%nat by lia. rewrite Nat.mod_add by discriminate. rewrite Nat.mod_small by exact L. reflexivity. }
    rewrite EP. apply words_app; [exact W|]. rewrite <- (app_nil_r lst) at 1. apply word_one; [exact Ll|constructor].
  - rewrite fold_left_app. cbn [fold_left]. rewrite <- V. apply final_eq; assumption.
Qed.
