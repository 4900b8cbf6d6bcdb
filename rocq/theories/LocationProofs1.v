From Verif Require Import Base Locator ParseSize Number Properties_Locator Properties_ParseSize NumberProofs Location LocationSpec.
Local Open Scope N_scope.

Lemma cut_here c a b : ~ In c a -> cut c (a ++ c :: b) = Some (a, b).
Proof.
  induction a as [|d a IH]; intros H; cbn.
  - rewrite N.eqb_refl. reflexivity.
  - destruct (N.eqb_spec d c) as [->|]; [exfalso; apply H; left; reflexivity|]. rewrite IH; [reflexivity|]. intros X. apply H. right. exact X.
Qed.
Lemma cut_none c a : ~ In c a -> cut c a = None.
Proof.
  induction a as [|d a IH]; intros H; cbn; [reflexivity|].
  destruct (N.eqb_spec d c) as [->|]; [exfalso; apply H; left; reflexivity|]. rewrite IH; [reflexivity|]. intros X. apply H. right. exact X.
Qed.
Lemma cut_inv c s a b : cut c s = Some (a, b) -> s = a ++ c :: b /\ ~ In c a.
Proof.
  revert a b. induction s as [|d s IH]; cbn; intros a b H; [discriminate|]. destruct (N.eqb_spec d c) as [->|].
  - injection H as <- <-. split; [reflexivity|intros []].
  - destruct (cut c s) as [[a' b']|]; [|discriminate]. injection H as <- <-. destruct (IH a' b' eq_refl) as [-> Hn]. split; [reflexivity|].
    intros [E|E]; [congruence|auto].
Qed.
Lemma rcut_here c a b : ~ In c b -> rcut c (a ++ c :: b) = Some (a, b).
Proof.
  intros H. assert (Hb : rcut c b = None).
  { clear a. induction b as [|d b IH]; cbn; [reflexivity|]. rewrite IH by (intros X; apply H; right; exact X).
    destruct (N.eqb_spec d c) as [->|]; [exfalso; apply H; left; reflexivity|reflexivity]. }
  induction a as [|d a IH]; cbn; [|rewrite IH; reflexivity]. rewrite Hb, N.eqb_refl. reflexivity.
Qed.
Lemma rcut_inv c s a b : rcut c s = Some (a, b) -> s = a ++ c :: b.
Proof.
  revert a b. induction s as [|d s IH]; cbn; intros a b H; [discriminate|].
  destruct (rcut c s) as [[a' b']|].
  - injection H as <- <-. rewrite (IH a' b' eq_refl). reflexivity.
  - destruct (N.eqb_spec d c) as [->|]; [|discriminate]. injection H as <- <-. reflexivity.
Qed.

(** * Name tables *)
Lemma hexdigit_eq c : hexdigit c = digit_in 16 c.
Proof.
  unfold hexdigit, digit_in, digit_value, digit, lower, upper.
  destruct ((48 <=? c) && (c <=? 57)) eqn:E1; [lia|]. cbn [orb].
  destruct ((97 <=? c) && (c <=? 122)) eqn:E2; [lia|]. destruct ((65 <=? c) && (c <=? 90)) eqn:E3; lia.
Qed.

Lemma parse_hex_text n rest : u64 n -> match rest with [] => True | d :: _ => digit_in 16 d = false end -> parse_hex (hex n ++ rest) = Ok (n, rest).
Proof.
  intros Hn Hr. unfold parse_hex. rewrite (strspn_exact hexdigit (hex n) rest).
  - rewrite takeN_app_exact, dropN_app_exact by reflexivity. rewrite safe_atox64_hex by exact Hn. reflexivity.
  - pose proof (hex_digits n) as Ha. unfold all in *. eapply Forall_impl; [|exact Ha]. intros c Hc. rewrite hexdigit_eq. exact Hc.
  - destruct rest; [exact I|]. rewrite hexdigit_eq. exact Hr.
Qed.

Definition item_ok (i : nitem) : Prop := u64 (i_hash i) /\ u64 (i_start i) /\ u64 (i_end i).
Lemma parse_one_text i rest : item_ok i -> match rest with [] => True | d :: _ => digit_in 16 d = false end ->
  parse_one (item_format i ++ rest) = Ok (i, rest).
Proof.
  intros (H1 & H2 & H3) Hr. unfold parse_one, item_format. cbn [app].
  change (at_ (72 :: ?x) 0) with 72. change (negb (72 =? 72)) with false. cbv iota. change (dropN 1 (72 :: ?x)) with x.
  rewrite <- app_assoc. rewrite parse_hex_text; [|exact H1|reflexivity]. cbn [bind app].
  change (at_ (83 :: ?x) 0) with 83. change (negb (83 =? 83)) with false. cbv iota. change (dropN 1 (83 :: ?x)) with x.
  rewrite <- app_assoc. rewrite parse_hex_text; [|exact H2|reflexivity]. cbn [bind app].
  change (at_ (88 :: ?x) 0) with 88. change (negb (88 =? 88)) with false. cbv iota. change (dropN 1 (88 :: ?x)) with x.
  rewrite parse_hex_text; [|exact H3|exact Hr]. cbn [bind]. destruct i; reflexivity.
Qed.

Lemma items_tail (its : list nitem) (ts : ntable) :
  match concat (map item_format its) ++ name_table_format ts with [] => True | d :: _ => digit_in 16 d = false end.
Proof. destruct its as [|i its]; cbn; [|reflexivity]. destruct ts as [|t ts]; [exact I|reflexivity]. Qed.

Lemma item_format_len i : (3 <= length (item_format i))%nat.
Proof. unfold item_format. cbn [length]. rewrite !app_length. cbn [length]. rewrite !app_length. cbn [length]. lia. Qed.

Lemma parse_table_text : forall (ts : ntable) eo its acc fuel,
  Forall item_ok its -> ntable_ok ts ->
  (2 * length (concat (map item_format its) ++ name_table_format ts) + 1 <= fuel)%nat ->
  parse_items fuel eo acc (concat (map item_format its) ++ name_table_format ts) = Ok ((eo, acc ++ its) :: ts, []).
Proof.
  induction ts as [|[eo' its'] ts IHt].
  - induction its as [|i its IH]; intros acc fuel Hi Ht Hf; (destruct fuel as [|fuel]; [lia|]); cbn [parse_items].
    + cbn. rewrite app_nil_r. reflexivity.
    + cbn [map concat]. rewrite <- app_assoc. change (at_ (item_format i ++ ?x) 0) with 72. change (72 =? 79) with false. change (72 =? 0) with false. cbv iota.
      inversion Hi as [|? ? Hi1 Hi2]; subst. rewrite parse_one_text; [|exact Hi1|apply items_tail]. cbn [bind].
      pose proof (item_format_len i). rewrite IH; [|exact Hi2|exact Ht|cbn [map concat] in Hf; rewrite <- app_assoc, app_length in Hf; lia].
      rewrite <- app_assoc. reflexivity.
  - induction its as [|i its IH]; intros acc fuel Hi Ht Hf; (destruct fuel as [|fuel]; [lia|]); cbn [parse_items].
    + cbn [map concat app]. unfold name_table_format. cbn [map concat]. change (table_format (eo', its')) with (79 :: hex eo' ++ concat (map item_format its')). cbn [app].
      change (at_ (79 :: ?x) 0) with 79. change (79 =? 79) with true. cbv iota.
      cbn [map concat app] in Hf. unfold name_table_format in Hf. cbn [map concat] in Hf. unfold table_format at 1 in Hf. cbn [fst snd app length] in Hf.
      destruct fuel as [|fuel]; [lia|]. cbn [parse_table]. change (at_ (79 :: ?x) 0) with 79. change (negb (79 =? 79)) with false. cbv iota.
      change (dropN 1 (79 :: ?x)) with x. inversion Ht as [|? ? [He Hi'] Ht2]; subst. cbn [fst snd] in *. rewrite <- app_assoc.
      fold (name_table_format ts). fold (name_table_format ts) in Hf. rewrite parse_hex_text; [|exact He|apply items_tail]. cbn [bind].
      rewrite (IHt eo' its' [] fuel Hi' Ht2); [|rewrite <- app_assoc, app_length in Hf; lia]. cbn [bind app]. rewrite app_nil_r. reflexivity.
    + cbn [map concat]. rewrite <- app_assoc. change (at_ (item_format i ++ ?x) 0) with 72. change (72 =? 79) with false. change (72 =? 0) with false. cbv iota.
      inversion Hi as [|? ? Hi1 Hi2]; subst. rewrite parse_one_text; [|exact Hi1|apply items_tail]. cbn [bind].
      pose proof (item_format_len i). rewrite IH; [|exact Hi2|exact Ht|cbn [map concat] in Hf; rewrite <- app_assoc, app_length in Hf; lia].
      rewrite <- app_assoc. reflexivity.
Qed.

Lemma name_table_round_trip t : t <> [] -> ntable_ok t -> name_table_parse (name_table_format t) = Ok (t, []).
Proof.
  destruct t as [|[eo its] ts]; intros Hn Ht; [congruence|]. inversion Ht as [|? ? [He Hi] Ht2]; subst. cbn [fst snd] in *.
  unfold name_table_parse. rewrite Nat.add_comm. cbn [Nat.add]. unfold name_table_format at 2. cbn [map concat]. unfold table_format. cbn [fst snd app parse_table].
  change (at_ (79 :: ?x) 0) with 79. change (negb (79 =? 79)) with false. cbv iota. change (dropN 1 (79 :: ?x)) with x.
  fold (name_table_format ts). rewrite <- app_assoc. rewrite parse_hex_text; [|exact He|apply items_tail]. cbn [bind].
  apply (parse_table_text ts eo its [] _ Hi Ht2). unfold name_table_format. cbn [map concat]. unfold table_format. cbn [fst snd app length]. fold (name_table_format ts).
  rewrite <- app_assoc. rewrite (app_length (hex eo)). lia.
Qed.

Lemma name_table_chars t c : In c (name_table_format t) -> digit_in 16 c = true \/ c = 79 \/ c = 72 \/ c = 83 \/ c = 88.
Proof.
  intros H. unfold name_table_format in H. apply in_concat in H. destruct H as (x & Hx & Hc). apply in_map_iff in Hx. destruct Hx as ([eo its] & <- & _).
  unfold table_format in Hc. cbn [fst snd] in Hc. destruct Hc as [<-|Hc]; [auto|]. apply in_app_iff in Hc.
  assert (Hh : forall n, In c (hex n) -> digit_in 16 c = true) by (intros n Hin; pose proof (hex_digits n) as Ha; unfold all in Ha; rewrite Forall_forall in Ha; exact (Ha c Hin)).
  destruct Hc as [Hc|Hc]; [left; eauto|]. apply in_concat in Hc. destruct Hc as (x & Hx & Hc). apply in_map_iff in Hx. destruct Hx as (i & <- & _).
  unfold item_format in Hc. destruct Hc as [<-|Hc]; [auto|]. apply in_app_iff in Hc. destruct Hc as [Hc|[<-|Hc]]; [left; eauto|auto|].
  apply in_app_iff in Hc. destruct Hc as [Hc|[<-|Hc]]; [left; eauto|auto|left; eauto].
Qed.

Lemma parse_hex_range x v r : parse_hex x = Ok (v, r) -> u64 v.
Proof.
  unfold parse_hex. destruct (safe_atox64 _) as [n| | |] eqn:E; try discriminate. cbn [bind]. intros H. injection H as <- _. eapply safe_ato_range. exact E.
Qed.
Lemma parse_hex_rest x v r : parse_hex x = Ok (v, r) -> (length r < length x)%nat.
Proof.
  unfold parse_hex. destruct (safe_atox64 _) as [n| | |] eqn:E; try discriminate. cbn [bind]. intros H. injection H as _ <-.
  assert (strspn hexdigit x <> 0).
  { intros Z. rewrite Z, takeN_0 in E. discriminate. }
  assert (strspn hexdigit x <= len x). { clear. induction x as [|c x IH]; cbn [strspn]; [lia|]. rewrite len_cons. destruct (hexdigit c); lia. }
  pose proof (len_dropN (strspn hexdigit x) x). unfold len in *. lia.
Qed.
Lemma parse_hex_res x : (exists v r, parse_hex x = Ok (v, r)) \/ parse_hex x = Err EINVAL \/ parse_hex x = Err ERANGE.
Proof.
  unfold parse_hex. destruct (safe_ato_res 16 (takeN (strspn hexdigit x) x)) as [[v E]|[E|E]]; unfold safe_atox64; rewrite E; cbn [bind]; eauto.
Qed.
Lemma parse_one_inv x : (exists i r, parse_one x = Ok (i, r) /\ item_ok i /\ (length r < length x)%nat) \/ parse_one x = Err EINVAL \/ parse_one x = Err ERANGE.
Proof.
  assert (D : forall y : list N, (length (dropN 1 y) <= length y)%nat) by (intros y; pose proof (len_dropN 1 y); unfold len in *; lia).
  unfold parse_one. destruct (negb _); [auto|].
  destruct (parse_hex_res (dropN 1 x)) as [(v & r & E)|[E|E]]; rewrite E; cbn [bind]; auto. pose proof (parse_hex_range _ _ _ E) as R1. pose proof (parse_hex_rest _ _ _ E) as L1.
  destruct (negb _); [auto|].
  destruct (parse_hex_res (dropN 1 r)) as [(v2 & r2 & E2)|[E2|E2]]; rewrite E2; cbn [bind]; auto. pose proof (parse_hex_range _ _ _ E2) as R2. pose proof (parse_hex_rest _ _ _ E2) as L2.
  destruct (negb _); [auto|].
  destruct (parse_hex_res (dropN 1 r2)) as [(v3 & r3 & E3)|[E3|E3]]; rewrite E3; cbn [bind]; auto. pose proof (parse_hex_range _ _ _ E3) as R3. pose proof (parse_hex_rest _ _ _ E3) as L3.
  pose proof (D x). pose proof (D r). pose proof (D r2).
  left. eexists _, _. split; [reflexivity|]. split; [repeat split; assumption|lia].
Qed.

Lemma parse_tables_inv : forall fuel,
  (forall x, (2 * length x + 2 <= fuel)%nat -> (exists t r, parse_table fuel x = Ok (t, r) /\ t <> [] /\ ntable_ok t) \/ parse_table fuel x = Err EINVAL \/ parse_table fuel x = Err ERANGE) /\
  (forall x eo acc, (2 * length x + 3 <= fuel)%nat -> u64 eo -> Forall item_ok acc ->
     (exists t r, parse_items fuel eo acc x = Ok (t, r) /\ t <> [] /\ ntable_ok t) \/ parse_items fuel eo acc x = Err EINVAL \/ parse_items fuel eo acc x = Err ERANGE).
Proof.
  induction fuel as [|fuel [IH1 IH2]]; split; intros; try lia.
  - cbn [parse_table]. destruct (negb (at_ x 0 =? 79)) eqn:E0; [auto|].
    destruct x as [|c x]; [discriminate|]. change (dropN 1 (c :: x)) with x. cbn [length] in H.
    destruct (parse_hex_res x) as [(v & r & E)|[E|E]]; rewrite E; cbn [bind]; auto.
    apply IH2; [apply parse_hex_rest in E; lia|eapply parse_hex_range; exact E|constructor].
  - cbn [parse_items]. destruct (at_ x 0 =? 79) eqn:E0.
    + destruct (IH1 x) as [(t & r & E & Hn & Ht)|[E|E]]; [lia| | |]; rewrite E; cbn [bind]; auto. left. eexists _, _. split; [reflexivity|]. split; [congruence|].
      constructor; [split; assumption|exact Ht].
    + destruct (at_ x 0 =? 0); [left; eexists _, _; split; [reflexivity|]; split; [congruence|]; constructor; [split; assumption|constructor]|].
      destruct (parse_one_inv x) as [(i & r & E & Hi & Hl)|[E|E]]; rewrite E; cbn [bind]; auto.
      apply IH2; [lia|assumption|]. apply Forall_app. split; [assumption|constructor; [exact Hi|constructor]].
Qed.
Lemma name_table_parse_inv x : (exists t r, name_table_parse x = Ok (t, r) /\ t <> [] /\ ntable_ok t) \/ name_table_parse x = Err EINVAL \/ name_table_parse x = Err ERANGE.
Proof. apply (proj1 (parse_tables_inv (2 * length x + 2))). lia. Qed.
