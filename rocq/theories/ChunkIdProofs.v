From Verif Require Import Base ChunkId.
Local Open Scope N_scope.

Definition all256 : list N := map N.of_nat (seq 0 256).
Lemma all256_in b : b < 256 -> In b all256.
Proof. intros H. unfold all256. apply in_map_iff. exists (N.to_nat b). split; [lia|]. apply in_seq. lia. Qed.

Lemma sweep256 (P : N -> bool) : forallb P all256 = true -> forall b, b < 256 -> P b = true.
Proof. intros H b Hb. rewrite forallb_forall in H. apply H, all256_in, Hb. Qed.

Lemma decode_encode_hi b : b < 256 ->
  decode_char (encode_char (N.shiftr b 4)) = Some (N.shiftr b 4) /\
  decode_char (encode_char (N.land b 15)) = Some (N.land b 15) /\
  N.lor (N.shiftl (N.shiftr b 4) 4 mod 256) (N.land b 15) = b.
Proof.
  intros Hb.
  assert (H : (match decode_char (encode_char (N.shiftr b 4)) with Some x => x =? N.shiftr b 4 | None => false end
     && match decode_char (encode_char (N.land b 15)) with Some x => x =? N.land b 15 | None => false end
     && (N.lor (N.shiftl (N.shiftr b 4) 4 mod 256) (N.land b 15) =? b)) = true).
  { exact (sweep256 (fun b => match decode_char (encode_char (N.shiftr b 4)) with Some x => x =? N.shiftr b 4 | None => false end
     && match decode_char (encode_char (N.land b 15)) with Some x => x =? N.land b 15 | None => false end
     && (N.lor (N.shiftl (N.shiftr b 4) 4 mod 256) (N.land b 15) =? b)) ltac:(vm_compute; reflexivity) b Hb). }
  apply andb_true_iff in H as [H H3]. apply andb_true_iff in H as [H1 H2].
  destruct (decode_char (encode_char (N.shiftr b 4))); [|discriminate].
  destruct (decode_char (encode_char (N.land b 15))); [|discriminate].
  apply N.eqb_eq in H1, H2, H3. subst. auto.
Qed.

Lemma encode_char_ok x : x < 16 -> (48 <= encode_char x <= 57 \/ 97 <= encode_char x <= 102).
Proof.
  intros Hx. pose proof (sweep256 (fun b => negb (b <? 16) || ((48 <=? encode_char b) && (encode_char b <=? 57)) ||
     ((97 <=? encode_char b) && (encode_char b <=? 102))) ltac:(vm_compute; reflexivity) x ltac:(lia)) as H.
  cbv beta in H. lia.
Qed.

Lemma decode_char_some c x : decode_char c = Some x -> x < 16 /\ encode_char x = c.
Proof.
  intros H. assert (Hx : x < 16).
  { unfold decode_char in H. destruct ((48 <=? c) && (c <=? 57)) eqn:E1; [injection H as <-; lia|].
    destruct ((97 <=? c) && (c <=? 102)) eqn:E2; [injection H as <-; lia|discriminate]. }
  split; [exact Hx|].
  assert (Hc : c < 256).
  { unfold decode_char in H. destruct ((48 <=? c) && (c <=? 57)) eqn:E1; [lia|].
    destruct ((97 <=? c) && (c <=? 102)) eqn:E2; [lia|discriminate]. }
  pose proof (sweep256 (fun b => match decode_char b with Some y => encode_char y =? b | None => true end) ltac:(vm_compute; reflexivity) c Hc) as Hs.
  cbv beta in Hs. rewrite H in Hs. apply N.eqb_eq in Hs. exact Hs.
Qed.

Lemma format_length id : length (chunk_id_format id) = (2 * length id)%nat.
Proof. induction id as [|b id IH]; [reflexivity|]. cbn [chunk_id_format flat_map app length] in *. unfold chunk_id_format in IH. lia. Qed.

Lemma format_cons b id : chunk_id_format (b :: id) = encode_char (N.shiftr b 4) :: encode_char (N.land b 15) :: chunk_id_format id.
Proof. reflexivity. Qed.

Lemma str_at_skip pre v i : str_at (pre ++ v) (length pre + i) = str_at v i.
Proof. unfold str_at. rewrite app_nth2 by lia. f_equal. lia. Qed.

Lemma parse_loop_format : forall id pre i post, bytes_ok id = true -> length pre = (2 * i)%nat ->
  parse_loop (pre ++ chunk_id_format id ++ post) i (length id) = Some id.
Proof.
  induction id as [|b id IH]; intros pre i post Hok Hl; cbn [length parse_loop]; [reflexivity|].
  cbn [bytes_ok forallb] in Hok. apply andb_true_iff in Hok as [Hb Hok]. apply N.ltb_lt in Hb.
  destruct (decode_encode_hi b Hb) as (H1 & H2 & H3).
  rewrite format_cons. cbn [app].
  replace (2 * i)%nat with (length pre + 0)%nat by lia. rewrite <- Nat.add_assoc. rewrite !str_at_skip. cbn [Nat.add str_at nth].
  unfold str_at. cbn [nth]. rewrite H1, H2.
  specialize (IH (pre ++ [encode_char (N.shiftr b 4); encode_char (N.land b 15)]) (S i) post Hok).
  rewrite <- app_assoc in IH. cbn [app] in IH. rewrite IH; [|rewrite app_length; cbn; lia].
  rewrite H3. reflexivity.
Qed.

Lemma parse_format id : id_ok id = true -> chunk_id_parse (chunk_id_format id) = Some id.
Proof.
  unfold id_ok. intros H. apply andb_true_iff in H as [Hl Hok]. apply N.eqb_eq in Hl.
  assert (Hl' : length id = 32%nat) by (unfold len in Hl; lia).
  unfold chunk_id_parse. pose proof (parse_loop_format id [] 0 [] Hok eq_refl) as Hp.
  cbn [app] in Hp. rewrite app_nil_r, Hl' in Hp. rewrite Hp.
  unfold str_at. rewrite nth_overflow; [reflexivity|]. rewrite format_length. lia.
Qed.

Lemma lor_nibbles x y : x < 16 -> y < 16 ->
  N.lor (N.shiftl x 4 mod 256) y < 256 /\ N.shiftr (N.lor (N.shiftl x 4 mod 256) y) 4 = x /\ N.land (N.lor (N.shiftl x 4 mod 256) y) 15 = y.
Proof.
  intros Hx Hy.
  pose proof (sweep256 (fun b => let x := b / 16 in let y := b mod 16 in
      let z := N.lor (N.shiftl x 4 mod 256) y in (z <? 256) && (N.shiftr z 4 =? x) && (N.land z 15 =? y))
      ltac:(vm_compute; reflexivity) (16 * x + y) ltac:(lia)) as H.
  cbv beta zeta in H. replace ((16 * x + y) / 16) with x in H by lia. replace ((16 * x + y) mod 16) with y in H by lia. lia.
Qed.

Lemma parse_loop_inv : forall k i v id, parse_loop v i k = Some id ->
  length id = k /\ bytes_ok id = true /\ forall j, (j < 2 * k)%nat -> str_at v (2 * i + j) = nth j (chunk_id_format id) 0.
Proof.
  induction k as [|k IH]; intros i v id; cbn [parse_loop].
  - intros [= <-]. split; [reflexivity|]. split; [reflexivity|]. intros; lia.
  - destruct (decode_char (str_at v (2 * i))) as [x|] eqn:Ex; [|discriminate].
    destruct (decode_char (str_at v (2 * i + 1))) as [y|] eqn:Ey; [|discriminate].
    destruct (parse_loop v (S i) k) as [l|] eqn:El; [|discriminate]. intros H.
    assert (Hid : id = N.lor (N.shiftl x 4 mod 256) y :: l) by congruence. clear H. subst id.
    apply IH in El as (Hlen & Hok & Hj).
    apply decode_char_some in Ex as [Hx Ex]. apply decode_char_some in Ey as [Hy Ey].
    destruct (lor_nibbles x y Hx Hy) as (Hz & Hh & Hlo).
    split; [cbn [length]; lia|]. split.
    + cbn [bytes_ok forallb]. apply andb_true_iff. split; [unfold byte_ok; lia|exact Hok].
    + intros j Hjk. rewrite format_cons, Hh, Hlo.
      destruct j as [|[|j]]; cbn [nth].
      * rewrite Nat.add_0_r. symmetry. exact Ex.
      * symmetry. exact Ey.
      * rewrite <- Hj by lia. f_equal. lia.
Qed.

Lemma cstr_ok_nth s i : cstr_ok s = true -> nth i s 0 = 0 -> (length s <= i)%nat.
Proof.
  intros Hs Hn. destruct (Nat.le_gt_cases (length s) i) as [H|H]; [exact H|exfalso].
  unfold cstr_ok in Hs. rewrite forallb_forall in Hs. specialize (Hs (nth i s 0) (nth_In s 0 H)). lia.
Qed.

Lemma format_cstr id : bytes_ok id = true -> cstr_ok (chunk_id_format id) = true.
Proof.
  induction id as [|b id IH]; intros H; [reflexivity|]. cbn [bytes_ok forallb] in H. apply andb_true_iff in H as [Hb H].
  rewrite format_cons. cbn [cstr_ok forallb]. apply N.ltb_lt in Hb.
  assert (H1 : N.shiftr b 4 < 16) by (rewrite N.shiftr_div_pow2; change (2^4) with 16; lia).
  assert (H2 : N.land b 15 < 16) by (change 15 with (N.ones 4); rewrite N.land_ones; change (2^4) with 16; lia).
  apply encode_char_ok in H1, H2. specialize (IH H). unfold cstr_ok in IH. rewrite IH. lia.
Qed.

Lemma parse_inv v id : cstr_ok v = true -> chunk_id_parse v = Some id -> id_ok id = true /\ v = chunk_id_format id.
Proof.
  intros Hv. unfold chunk_id_parse. destruct (parse_loop v 0 32) as [l|] eqn:E; [|discriminate].
  destruct (N.eqb_spec (str_at v 64) 0) as [H0|]; [|discriminate]. intros [= <-].
  apply parse_loop_inv in E as (Hlen & Hok & Hj).
  split; [unfold id_ok, len; rewrite Hok, Hlen; reflexivity|].
  assert (Hle : (length v <= 64)%nat) by (apply cstr_ok_nth; assumption).
  assert (Hfl : length (chunk_id_format l) = 64%nat) by (rewrite format_length, Hlen; reflexivity).
  assert (Hge : (64 <= length v)%nat).
  { destruct (Nat.le_gt_cases 64 (length v)) as [H|H]; [exact H|exfalso].
    specialize (Hj (length v) ltac:(lia)). rewrite Nat.mul_0_r, Nat.add_0_l in Hj. unfold str_at in Hj.
    rewrite (nth_overflow v) in Hj by lia. symmetry in Hj.
    apply (cstr_ok_nth _ _ (format_cstr l Hok)) in Hj. lia. }
  apply (nth_ext v (chunk_id_format l) 0 0); [lia|]. intros n Hn. specialize (Hj n ltac:(lia)). exact Hj.
Qed.

Lemma format_inj a b : id_ok a = true -> id_ok b = true -> chunk_id_format a = chunk_id_format b -> a = b.
Proof. intros Ha Hb H. apply parse_format in Ha, Hb. rewrite H in Ha. congruence. Qed.

Lemma format_path_inj p s a b : id_ok a = true -> id_ok b = true ->
  chunk_id_format_path p a s = chunk_id_format_path p b s -> a = b.
Proof.
  intros Ha Hb H. unfold chunk_id_format_path in H. apply app_inv_head in H.
  assert (Hla : length a = 32%nat) by (unfold id_ok, len in Ha; lia).
  assert (Hlb : length b = 32%nat) by (unfold id_ok, len in Hb; lia).
  apply app_inj_len in H as [_ H]; [|rewrite !firstn_length, !format_length; lia].
  injection H as H. apply app_inv_tail in H. apply format_inj; assumption.
Qed.
