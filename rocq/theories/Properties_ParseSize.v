(** C38: size strings. *)
From Verif Require Import Base Chunker SetSize Locator ParseSize Properties_Locator.
From Coq Require Import Floats.SpecFloat.
Local Open Scope N_scope.

(** ** Specification. The factor a suffix letter stands for; letters have to appear in this order. *)
Inductive unit_of : N -> list N -> N -> Prop :=    (* position, suffix, factor *)
| unit_E : unit_of 0 [69] (1024 * 1024 * 1024 * 1024 * 1024 * 1024)
| unit_P : unit_of 1 [80] (1024 * 1024 * 1024 * 1024 * 1024)
| unit_T : unit_of 2 [84] (1024 * 1024 * 1024 * 1024)
| unit_G : unit_of 3 [71] (1024 * 1024 * 1024)
| unit_M : unit_of 4 [77] (1024 * 1024)
| unit_K : unit_of 5 [75] 1024
| unit_B : unit_of 6 [66] 1
| unit_none : unit_of 7 [] 1.

(** The value of a string of decimal digits. *)
Inductive digits : list N -> N -> Prop :=
| digits_one d : 48 <= d <= 57 -> digits [d] (d - 48)
| digits_more s v d : digits s v -> 48 <= d <= 57 -> digits (s ++ [d]) (10 * v + (d - 48)).

Definition spaces (s : list N) : Prop := Forall (fun c => c = 32 \/ 9 <= c <= 13) s.
Definition blanks (s : list N) : Prop := Forall (fun c => c = 32 \/ c = 9) s.

(** A term: a number, possibly after spaces and a plus sign, and a suffix, possibly after blanks. *)
Definition term (i : N) (s : list N) (v : N) : Prop := exists sp plus ds n bl suffix factor,
  s = sp ++ plus ++ ds ++ bl ++ suffix /\ spaces sp /\ (plus = [] \/ plus = [43]) /\ digits ds n /\ blanks bl /\
  unit_of i suffix factor /\ v = n * factor.

(** A size: a sequence of terms with smaller and smaller units; only the last one may lack the unit. *)
Inductive size_text : N -> list N -> N -> Prop :=
| size_last k i s v : k <= i -> term i s v -> size_text k s v
| size_more k i s v rest w : k <= i -> i < 7 -> term i s v -> rest <> [] -> size_text (i + 1) rest w -> size_text k (s ++ rest) (v + w).

(** ** Proofs *)
Lemma decimal_app s d : decimal (s ++ [d]) = 10 * decimal s + (d - 48).
Proof. unfold decimal. rewrite fold_left_app. reflexivity. Qed.
Lemma digit_iff c : digit c = true <-> 48 <= c <= 57.
Proof. unfold digit. rewrite andb_true_iff, !N.leb_le. reflexivity. Qed.
Lemma blank_iff c : blank c = true <-> c = 32 \/ c = 9.
Proof. unfold blank. rewrite orb_true_iff, !N.eqb_eq. reflexivity. Qed.
Lemma isspace_iff c : isspace c = true <-> c = 32 \/ 9 <= c <= 13.
Proof. unfold isspace. rewrite orb_true_iff, andb_true_iff, N.eqb_eq, !N.leb_le. reflexivity. Qed.
Lemma digits_iff s v : digits s v <-> s <> [] /\ all digit s /\ v = decimal s.
Proof.
  split.
  - induction 1 as [d D|s v d H (A & B & ->) D].
    + split; [discriminate|]. split; [constructor; [apply digit_iff, D|constructor]|]. unfold decimal. cbn [fold_left]. lia.
    + split; [destruct s; discriminate|]. split; [apply Forall_app; split; [exact B|constructor; [apply digit_iff, D|constructor]]|].
      rewrite decimal_app. reflexivity.
  - intros (A & B & ->). induction s as [|d s IH] using rev_ind; [congruence|]. apply Forall_app in B. destruct B as [B D]. inversion D; subst.
    destruct s as [|c s].
    + cbn [app]. replace (decimal [d]) with (d - 48) by (unfold decimal; cbn [fold_left]; lia). constructor. apply digit_iff. assumption.
    + rewrite decimal_app. apply digits_more; [apply IH; [discriminate|exact B]|apply digit_iff; assumption].
Qed.

(** What may follow a number. *)
Definition no_digit (s : list N) : Prop := match s with [] => True | d :: _ => digit d = false end.
Lemma strtoull_some p l e er : strtoull p = Some (l, e, er) -> ~ In 45 p ->
  exists sp plus ds, p = sp ++ plus ++ ds ++ e /\ spaces sp /\ (plus = [] \/ plus = [43]) /\ digits ds (decimal ds) /\ no_digit e /\
    (if er then two64 <= decimal ds else l = decimal ds /\ l < two64).
Proof.
  intros H Hm. unfold strtoull in H. destruct (strspn_split isspace p) as (sp & q & -> & A & E & B). rewrite E, dropN_app_exact in H by reflexivity.
  assert (Hq : ~ In 45 q) by (intros K; apply Hm, in_or_app; right; exact K).
  destruct (N.eqb_spec (at_ q 0) 45) as [Q | Q].
  { exfalso. destruct q as [|c q]; [discriminate|]. change (at_ (c :: q) 0) with c in Q. subst c. apply Hq. left. reflexivity. }
  cbn [orb] in H. set (q' := if at_ q 0 =? 43 then dropN 1 q else q) in *.
  assert (Hp : exists plus, q = plus ++ q' /\ (plus = [] \/ plus = [43])).
  { subst q'. destruct (N.eqb_spec (at_ q 0) 43) as [P | P]; [|exists []; auto]. destruct q as [|c q]; [discriminate|]. change (at_ (c :: q) 0) with c in P. subst c. exists [43]. auto. }
  clearbody q'. clear Q. destruct Hp as (plus & -> & Hp). destruct (strspn_split digit q') as (ds & r & -> & Ad & Ed & Br). rewrite Ed in H.
  destruct (N.eqb_spec (len ds) 0) as [Z | Z]; [discriminate|]. rewrite takeN_app_exact, dropN_app_exact in H by reflexivity.
  assert (Sp : spaces sp) by (unfold spaces; eapply Forall_impl; [|exact A]; intros c; apply isspace_iff).
  assert (Dd : digits ds (decimal ds)) by (apply digits_iff; split; [intros ->; apply Z; reflexivity|auto]).
  destruct (N.ltb_spec UINT64_MAX (decimal ds)) as [O | O]; injection H as <- <- <-; exists sp, plus, ds; repeat split; auto; unfold UINT64_MAX, two64 in *; lia.
Qed.
Lemma strtoull_none p : strtoull p = None -> forall sp plus ds n e, p = sp ++ plus ++ ds ++ e -> spaces sp -> (plus = [] \/ plus = [43]) -> digits ds n -> False.
Proof.
  intros H sp plus ds n e -> Sp Hp Dd. apply digits_iff in Dd. destruct Dd as (Dn & Da & _). destruct ds as [|d ds]; [congruence|]. inversion Da as [|? ? D1 D2]; subst. clear Dn.
  assert (R : 48 <= d <= 57) by (apply digit_iff, D1).
  unfold strtoull in H. rewrite (strspn_exact isspace sp) in H.
  2:{ unfold all. eapply Forall_impl; [|exact Sp]. intros c; apply isspace_iff. }
  2:{ destruct Hp as [-> | ->]; cbn [app]; [|reflexivity]. destruct (isspace d) eqn:I; [|reflexivity]. apply isspace_iff in I. lia. }
  rewrite dropN_app_exact in H by reflexivity.
  assert (K : (if ((at_ (plus ++ (d :: ds) ++ e) 0 =? 45) || (at_ (plus ++ (d :: ds) ++ e) 0 =? 43))%bool then dropN 1 (plus ++ (d :: ds) ++ e) else plus ++ (d :: ds) ++ e) = d :: ds ++ e).
  { destruct Hp as [-> | ->]; cbn [app].
    - change (at_ (d :: ds ++ e) 0) with d. destruct (N.eqb_spec d 45); [lia|]. destruct (N.eqb_spec d 43); [lia|]. reflexivity.
    - change (at_ (43 :: d :: ds ++ e) 0) with 43. reflexivity. }
  cbv zeta in H. rewrite K in H. cbn [strspn] in H. rewrite D1 in H. destruct (N.eqb_spec (1 + strspn digit (ds ++ e)) 0); [lia|]. destruct (_ <? _); discriminate.
Qed.
Lemma strtoull_text sp plus ds n e : spaces sp -> (plus = [] \/ plus = [43]) -> digits ds n -> no_digit e ->
  strtoull (sp ++ plus ++ ds ++ e) = Some (if UINT64_MAX <? n then UINT64_MAX else n, e, UINT64_MAX <? n).
Proof.
  intros Sp Hp Dd Ne. apply digits_iff in Dd. destruct Dd as (Dn & Da & ->).
  unfold strtoull. rewrite (strspn_exact isspace sp).
  2:{ unfold all. eapply Forall_impl; [|exact Sp]. intros c; apply isspace_iff. }
  2:{ destruct Hp as [-> | ->]; cbn [app]; [|reflexivity]. destruct ds as [|d ds]; [congruence|]. cbn [app]. inversion Da as [|? ? D1 D2]; subst. apply digit_iff in D1.
      destruct (isspace d) eqn:I; [|reflexivity]. apply isspace_iff in I. lia. }
  rewrite dropN_app_exact by reflexivity. cbv zeta.
  assert (K : at_ (plus ++ ds ++ e) 0 =? 45 = false /\ (if ((at_ (plus ++ ds ++ e) 0 =? 45) || (at_ (plus ++ ds ++ e) 0 =? 43))%bool then dropN 1 (plus ++ ds ++ e) else plus ++ ds ++ e) = ds ++ e).
  { destruct Hp as [-> | ->]; cbn [app].
    - destruct ds as [|d ds]; [congruence|]. inversion Da as [|? ? D1 D2]; subst. apply digit_iff in D1. cbn [app].
      change (at_ (d :: ds ++ e) 0) with d. destruct (N.eqb_spec d 45); [lia|]. destruct (N.eqb_spec d 43); [lia|]. auto.
    - change (at_ (43 :: ds ++ e) 0) with 43. auto. }
  destruct K as [K1 K2]. rewrite K2, K1. rewrite strspn_exact by assumption. 
  destruct (N.eqb_spec (len ds) 0) as [Z | Z]; [destruct ds; [congruence|rewrite len_cons in Z; lia]|].
  rewrite takeN_app_exact, dropN_app_exact by reflexivity. destruct (UINT64_MAX <? decimal ds); reflexivity.
Qed.

(** Suffixes *)
Lemma find_suffix_ok k e i f r : k <= 8 -> find_suffix k (dropN k size_table) e = Some (i, f, r) ->
  exists s, k <= i /\ unit_of i s f /\ e = s ++ r.
Proof.
  intros Hk. assert (C : k = 0 \/ k = 1 \/ k = 2 \/ k = 3 \/ k = 4 \/ k = 5 \/ k = 6 \/ k = 7 \/ k = 8) by lia.
  assert (G : forall k0 s0 f0 tl, find_suffix k0 ((s0, f0) :: tl) e = Some (i, f, r) -> (i = k0 /\ f = f0 /\ e = s0 ++ r) \/ find_suffix (k0 + 1) tl e = Some (i, f, r)).
  { intros k0 s0 f0 tl H. cbn [find_suffix] in H. destruct (startswith e s0) eqn:E; [|right; exact H]. apply startswith_iff in E. injection H as <- <- <-. left. auto. }
  assert (G7 : forall k0, k0 = 7 -> find_suffix k0 [([], 1)] e = Some (i, f, r) -> exists s, k0 <= i /\ unit_of i s f /\ e = s ++ r).
  { intros k0 -> H. apply G in H. destruct H as [(-> & -> & ->) | H]; [|discriminate]. exists []. split; [lia|]. split; [constructor|reflexivity]. }
  assert (step : forall k0 s0 f0 tl, unit_of k0 s0 f0 -> (find_suffix (k0 + 1) tl e = Some (i, f, r) -> exists s, k0 + 1 <= i /\ unit_of i s f /\ e = s ++ r) ->
    find_suffix k0 ((s0, f0) :: tl) e = Some (i, f, r) -> exists s, k0 <= i /\ unit_of i s f /\ e = s ++ r).
  { intros k0 s0 f0 tl U IH H. apply G in H. destruct H as [(-> & -> & ->) | H].
    - exists s0. split; [lia|]. auto.
    - destruct (IH H) as (s & A1 & A2). exists s. split; [lia|exact A2]. }
  assert (A7 := G7 7 eq_refl).
  assert (A6 := step 6 [66] 1 _ ltac:(constructor) A7).
  assert (A5 := step 5 [75] (2 ^ 10) _ ltac:(constructor) A6).
  assert (A4 := step 4 [77] (2 ^ 20) _ ltac:(constructor) A5).
  assert (A3 := step 3 [71] (2 ^ 30) _ ltac:(constructor) A4).
  assert (A2 := step 2 [84] (2 ^ 40) _ ltac:(constructor) A3).
  assert (A1 := step 1 [80] (2 ^ 50) _ ltac:(constructor) A2).
  assert (A0 := step 0 [69] (2 ^ 60) _ ltac:(constructor) A1).
  destruct C as [-> | [-> | [-> | [-> | [-> | [-> | [-> | [-> | ->]]]]]]]]; try assumption. discriminate.
Qed.

Lemma unit_inv i s f : unit_of i s f -> i <= 7 /\ 1 <= f /\ size_of_double (SFmul 53 1024 (S754_zero false) (double_of_N f)) = Ok 0 /\
  (match s with [] => i = 7 | c :: t => t = [] /\ i < 7 /\ blank c = false /\ digit c = false /\ c <> 46 end).
Proof. destruct 1; (split; [lia|]; split; [lia|]; split; [vm_compute; reflexivity|]); try reflexivity; (split; [reflexivity|]; split; [lia|]; split; [reflexivity|]; split; [reflexivity|lia]). Qed.

Lemma find_suffix_text k i s f rest : unit_of i s f -> k <= i -> (i < 7 \/ rest = []) -> find_suffix k (dropN k size_table) (s ++ rest) = Some (i, f, rest).
Proof.
  intros U Hk Hr. assert (L := unit_inv _ _ _ U). assert (C : k = 0 \/ k = 1 \/ k = 2 \/ k = 3 \/ k = 4 \/ k = 5 \/ k = 6 \/ k = 7) by lia. clear L.
  destruct C as [-> | [-> | [-> | [-> | [-> | [-> | [-> | ->]]]]]]]; destruct U; try (exfalso; lia);
    try (destruct Hr as [Hr | ->]; [exfalso; lia|]); reflexivity.
Qed.

Lemma one_term fuel k i s v rest r : term i s v -> k <= i -> (i < 7 \/ rest = []) -> r < two64 ->
  parse_size_loop (S fuel) k r (s ++ rest) =
    if two64 <=? r + v then Err ERANGE else match rest with [] => Ok (r + v) | _ => parse_size_loop fuel (i + 1) (r + v) rest end.
Proof.
  intros (sp & plus & ds & n & bl & suf & f & -> & Sp & Hp & Dd & Bl & U & ->) Hk Hr Lr. cbn [parse_size_loop].
  destruct (unit_inv _ _ _ U) as (_ & Lf & Fz & Us).
  assert (Dh := Dd). apply digits_iff in Dh. destruct Dh as (Dn & Da & _). destruct ds as [|d0 ds']; [congruence|]. inversion Da as [|? ? D0 _]; subst. clear Dn.
  set (ds := d0 :: ds') in *. assert (D0' : 48 <= d0 <= 57) by (apply digit_iff, D0).
  set (e := bl ++ suf ++ rest).
  assert (Ed : (sp ++ plus ++ ds ++ bl ++ suf) ++ rest = sp ++ plus ++ ds ++ e) by (subst e; rewrite <- !app_assoc; reflexivity). rewrite Ed. clear Ed.
  assert (He : match e with [] => True | c :: _ => digit c = false /\ c <> 46 end).
  { subst e. destruct bl as [|c bl]; cbn [app].
    - destruct suf as [|c suf]; cbn [app]; [destruct Hr as [Hr | ->]; [exfalso; clear -Us Hr; lia|exact I]|tauto].
    - inversion Bl; subst. split; [destruct (digit c) eqn:Q; [apply digit_iff in Q; lia|reflexivity]|lia]. }
  destruct (strspn_split blank sp) as (b0 & sp1 & -> & B0 & _ & B1). apply Forall_app in Sp. destruct Sp as [Sp0 Sp1].
  rewrite <- app_assoc.
  assert (Hh : match sp1 ++ plus ++ ds ++ e with [] => False | c :: _ => blank c = false /\ c <> 45 end).
  { destruct sp1 as [|c sp1]; cbn [app].
    - assert (blank d0 = false) by (destruct (blank d0) eqn:Q; [apply blank_iff in Q; lia|reflexivity]). destruct Hp as [-> | ->]; cbn [app]; [split; [assumption|lia]|split; [reflexivity|lia]].
    - inversion Sp1; subst. split; [exact B1|lia]. }
  rewrite (strspn_exact blank b0) by (try assumption; destruct (sp1 ++ plus ++ ds ++ e); tauto).
  rewrite dropN_app_exact by reflexivity.
  assert (M : at_ (sp1 ++ plus ++ ds ++ e) 0 =? 45 = false).
  { destruct (sp1 ++ plus ++ ds ++ e) as [|c x]; [contradiction|]. apply N.eqb_neq. apply Hh. }
  rewrite M. rewrite (strtoull_text sp1 plus ds n e); [|assumption|assumption|assumption|destruct e; [exact I|apply He]].
  destruct (N.ltb_spec UINT64_MAX n) as [O | O].
  { destruct (N.leb_spec two64 (r + n * f)) as [O2 | O2]; [reflexivity|exfalso]. unfold UINT64_MAX, two64 in *. nia. }
  assert (Pf : parse_fraction e = Ok (S754_zero false, e)).
  { unfold parse_fraction. destruct e as [|c e']; [reflexivity|]. change (at_ (c :: e') 0) with c. destruct (N.eqb_spec c 46) as [E | E]; [destruct He; contradiction|reflexivity]. }
  rewrite Pf. cbn [bind]. subst e.
  rewrite (strspn_exact blank bl).
  2:{ unfold all. eapply Forall_impl; [|exact Bl]. intros c; apply blank_iff. }
  2:{ destruct suf as [|c suf]; cbn [app]; [destruct Hr as [Hr | ->]; [exfalso; clear -Us Hr; lia|exact I]|tauto]. }
  rewrite dropN_app_exact by reflexivity. rewrite (find_suffix_text k i suf f rest U Hk Hr).
  change (SFltb (S754_zero false) (S754_zero false)) with false. cbv iota. rewrite N.add_0_r, (N.mod_small n) by (unfold UINT64_MAX, two64 in *; lia).
  destruct (N.ltb_spec (UINT64_MAX / f) n) as [Q | Q].
  { assert (UINT64_MAX < n * f). { destruct (N.lt_ge_cases UINT64_MAX (n * f)) as [G | G]; [exact G|exfalso]. apply N.div_le_mono with (c := f) in G; [|lia]. rewrite N.div_mul in G by lia. lia. }
    destruct (N.leb_spec two64 (r + n * f)) as [O2 | O2]; [reflexivity|exfalso]. unfold UINT64_MAX, two64 in *. lia. }
  assert (Nf : n * f <= UINT64_MAX). { transitivity (UINT64_MAX / f * f); [nia|]. rewrite N.mul_comm. apply N.mul_div_le. lia. }
  rewrite Fz. cbn [bind]. rewrite N.add_0_r, (N.mod_small (n * f)) by (unfold UINT64_MAX, two64 in *; lia).
  destruct (N.ltb_spec (UINT64_MAX - r) (n * f)) as [Z | Z]; destruct (N.leb_spec two64 (r + n * f)) as [O2 | O2]; try reflexivity; exfalso; unfold UINT64_MAX, two64 in *; lia.
Qed.

Lemma term_nonempty i s v : term i s v -> s <> [].
Proof.
  intros (sp & plus & ds & n & bl & suf & f & -> & _ & _ & Dd & _) E. apply digits_iff in Dd. destruct Dd as (Dn & _).
  apply app_eq_nil in E. destruct E as [_ E]. apply app_eq_nil in E. destruct E as [_ E]. apply app_eq_nil in E. tauto.
Qed.

Lemma loop_text k p w : size_text k p w -> forall fuel r, (length p < fuel)%nat -> r < two64 ->
  parse_size_loop fuel k r p = if r + w <? two64 then Ok (r + w) else Err ERANGE.
Proof.
  induction 1 as [k i s v Hk T|k i s v rest w Hk Hi T Hr H IH]; intros fuel r Hf Lr; (destruct fuel as [|fuel]; [lia|]).
  - rewrite <- (app_nil_r s). rewrite (one_term fuel k i s v [] r T Hk) by auto. destruct (N.leb_spec two64 (r + v)), (N.ltb_spec (r + v) two64); try reflexivity; lia.
  - rewrite (one_term fuel k i s v rest r T Hk) by auto. rewrite app_length in Hf. pose proof (term_nonempty _ _ _ T) as Ns.
    assert (Hl : (length rest < fuel)%nat) by (destruct s; [congruence|cbn in Hf; lia]).
    destruct (N.leb_spec two64 (r + v)) as [O | O].
    + destruct (N.ltb_spec (r + (v + w)) two64); [lia|reflexivity].
    + destruct rest as [|c rest]; [congruence|]. rewrite IH by (try assumption). rewrite N.add_assoc. reflexivity.
Qed.

Lemma size_text_le k p w : size_text k p w -> k <= 7.
Proof. assert (K : forall i s v, term i s v -> i <= 7) by (intros i s v (sp & plus & ds & n & bl & suf & f & _ & _ & _ & _ & _ & U & _); apply (unit_inv _ _ _ U)).
  destruct 1 as [k i s v Hk T|k i s v rest w Hk Hi T Hr H]; apply K in T; lia. Qed.

Lemma loop_sound : forall fuel k r p, k <= 8 -> r < two64 -> (length p < fuel)%nat -> ~ In 45 p -> ~ In 46 p ->
  (exists w, size_text k p w) \/ exists e, parse_size_loop fuel k r p = Err e.
Proof.
  induction fuel as [|fuel IH]; intros k r p Hk Lr Hf H45 H46; [lia|].
  destruct (strspn_split blank p) as (b0 & p1 & Ep & B0 & E0 & B1).
  assert (Sp0 : spaces b0) by (unfold spaces; eapply Forall_impl; [|exact B0]; intros c C; apply blank_iff in C; lia).
  assert (Q45 : ~ In 45 p1) by (intros K; apply H45; subst p; apply in_or_app; auto).
  destruct (strtoull p1) as [[[l e] er]|] eqn:S.
  2:{ right. exists EINVAL. cbn [parse_size_loop]. rewrite E0. subst p. rewrite dropN_app_exact by reflexivity. rewrite S.
      destruct (N.eqb_spec (at_ p1 0) 45) as [Z | Z]; [|reflexivity]. exfalso. destruct p1 as [|c p1]; [discriminate|]. change (at_ (c :: p1) 0) with c in Z. subst c. apply Q45. left. reflexivity. }
  destruct (strtoull_some _ _ _ _ S Q45) as (sp & plus & ds & E1 & Sp & Hp & Dd & Ne & _).
  destruct (strspn_split blank e) as (bl & e1 & Ee & Bl & E2 & B2).
  destruct (find_suffix k (dropN k size_table) e1) as [[[i f] rest]|] eqn:F.
  - destruct (find_suffix_ok k e1 i f rest Hk F) as (suf & Hi & U & Es).
    assert (T : term i (b0 ++ sp ++ plus ++ ds ++ bl ++ suf) (decimal ds * f)).
    { exists (b0 ++ sp), plus, ds, (decimal ds), bl, suf, f. split; [rewrite <- app_assoc; reflexivity|]. split; [apply Forall_app; auto|]. split; [exact Hp|]. split; [exact Dd|].
      split; [unfold blanks; eapply Forall_impl; [|exact Bl]; intros c; apply blank_iff|]. auto. }
    assert (Ep' : p = (b0 ++ sp ++ plus ++ ds ++ bl ++ suf) ++ rest) by (subst p p1 e e1; rewrite <- !app_assoc; reflexivity).
    destruct (unit_inv _ _ _ U) as (I7 & _).
    destruct rest as [|c rest].
    + left. exists (decimal ds * f). rewrite Ep', app_nil_r. apply (size_last k i); assumption.
    + assert (Lp : (length (c :: rest) < fuel)%nat).
      { rewrite Ep', app_length in Hf. pose proof (term_nonempty _ _ _ T). destruct (b0 ++ sp ++ plus ++ ds ++ bl ++ suf); [congruence|cbn [length] in *; lia]. }
      assert (R45 : ~ In 45 (c :: rest)) by (intros K; apply H45; rewrite Ep'; apply in_or_app; auto).
      assert (R46 : ~ In 46 (c :: rest)) by (intros K; apply H46; rewrite Ep'; apply in_or_app; auto).
      destruct (N.lt_ge_cases i 7) as [I | I].
      * pose proof (one_term fuel k i _ _ (c :: rest) r T Hi ltac:(auto) Lr) as Ot. rewrite <- Ep' in Ot.
        destruct (N.leb_spec two64 (r + decimal ds * f)) as [O | O]; [right; eauto|].
        destruct (IH (i + 1) (r + decimal ds * f) (c :: rest) ltac:(lia) O Lp R45 R46) as [[w W] | [er' W]].
        -- left. exists (decimal ds * f + w). rewrite Ep'. apply (size_more k i); auto. discriminate.
        -- right. exists er'. rewrite Ot. exact W.
      * right. assert (i = 7) by lia. subst i. inversion U; subst suf f.
        cbn [parse_size_loop]. rewrite E0. subst p. rewrite dropN_app_exact by reflexivity. rewrite S.
        destruct (at_ p1 0 =? 45); [eauto|]. destruct er; [eauto|].
        assert (Pf : parse_fraction e = Ok (S754_zero false, e)).
        { unfold parse_fraction. destruct e as [|c' e']; [reflexivity|]. change (at_ (c' :: e') 0) with c'. destruct (N.eqb_spec c' 46) as [Z | Z]; [|reflexivity].
          exfalso. subst c'. apply H46. apply in_or_app; right. rewrite E1. apply in_or_app; right. apply in_or_app; right. apply in_or_app; right. left. reflexivity. }
        rewrite Pf. cbn [bind]. rewrite E2, Ee. rewrite dropN_app_exact by reflexivity. rewrite F.
        destruct (_ <? _); [eauto|]. change (size_of_double _) with (@Ok N 0). cbn [bind]. cbv zeta. destruct (N.ltb_spec (UINT64_MAX - r) ((l * 1 + 0) mod two64)) as [Z | Z]; [eauto|].
        change (7 + 1) with 8. set (r' := r + _). assert (Lr' : r' < two64). { subst r'. unfold UINT64_MAX, two64 in *. set (m := _ mod _) in *. lia. }
        destruct (IH 8 r' (c :: rest) ltac:(lia) Lr' Lp R45 R46) as [[w W] | W]; [|exact W].
        apply size_text_le in W. lia.
  - right. cbn [parse_size_loop]. rewrite E0. subst p. rewrite dropN_app_exact by reflexivity. rewrite S.
    destruct (at_ p1 0 =? 45); [eauto|]. destruct er; [eauto|].
    assert (Pf : parse_fraction e = Ok (S754_zero false, e)).
    { unfold parse_fraction. destruct e as [|c' e']; [reflexivity|]. change (at_ (c' :: e') 0) with c'. destruct (N.eqb_spec c' 46) as [Z | Z]; [|reflexivity].
      exfalso. subst c'. apply H46. apply in_or_app; right. rewrite E1. apply in_or_app; right. apply in_or_app; right. apply in_or_app; right. left. reflexivity. }
    rewrite Pf. cbn [bind]. rewrite E2, Ee. rewrite dropN_app_exact by reflexivity. rewrite F. eauto.
Qed.

(** C38. For every string without a dot and a minus sign: it is accepted exactly if it is a size text whose value fits into 64
    bit, and then the result is this value; a size text with a larger value is refused with ERANGE, everything else is
    refused too. What is missing: the rounding of fractions; for what goes wrong see below. *)
Theorem size_string_exact_partial :
  forall s, ~ In 45 s -> ~ In 46 s ->
  (forall v, parse_size s = Ok v <-> size_text 0 s v /\ v < two64) /\
  (forall v, size_text 0 s v -> two64 <= v -> parse_size s = Err ERANGE) /\
  ((exists v, parse_size s = Ok v) \/ exists e, parse_size s = Err e).
Proof.
  intros s H45 H46. unfold parse_size.
  assert (T : forall w, size_text 0 s w -> parse_size_loop (S (length s)) 0 0 s = if w <? two64 then Ok w else Err ERANGE).
  { intros w W. rewrite (loop_text _ _ _ W) by (try lia; reflexivity). rewrite N.add_0_l. reflexivity. }
  destruct (loop_sound (S (length s)) 0 0 s ltac:(lia) ltac:(reflexivity) ltac:(lia) H45 H46) as [[w W] | [e E]].
  - pose proof (T w W) as Tw. split; [|split].
    + intros v. split.
      * intros H. rewrite Tw in H. destruct (N.ltb_spec w two64) as [L | L]; [|discriminate]. injection H as <-. auto.
      * intros [V L]. rewrite (T v V). destruct (N.ltb_spec v two64); [reflexivity|lia].
    + intros v V L. rewrite (T v V). destruct (N.ltb_spec v two64); [lia|reflexivity].
    + rewrite Tw. destruct (w <? two64); eauto.
  - split; [|split; [|eauto]].
    + intros v. rewrite E. split; [discriminate|]. intros [V L]. rewrite (T v V) in E. destruct (N.ltb_spec v two64); [discriminate|lia].
    + intros v V L. rewrite (T v V). destruct (N.ltb_spec v two64); [lia|reflexivity].
Qed.
Print Assumptions size_string_exact_partial.

(** C38 does not hold for all strings: "18446744073709551615.5K" wraps around silently, as the addition in the check for
    overflow does so itself; and a minus sign is accepted behind a vertical tab, so that "\v-1" is 2^64 - 1. *)
Theorem size_string_wraps_refuted :
  parse_size [49;56;52;52;54;55;52;52;48;55;51;55;48;57;53;53;49;54;49;53;46;53;75] = Ok (two64 - 1024 + 512).
Proof. vm_compute. reflexivity. Qed.
Print Assumptions size_string_wraps_refuted.
Theorem size_string_negative_refuted : parse_size [11; 45; 49] = Ok (two64 - 1).
Proof. vm_compute. reflexivity. Qed.
Print Assumptions size_string_negative_refuted.

(** "1G2M 3" is 1 GiB + 2 MiB + 3, "16E" is too much, "1M1G" isn't in order. *)
Example c38_case : parse_size [49; 71; 50; 77; 32; 51] = Ok 1075838979 /\ size_text 0 [49; 71; 50; 77; 32; 51] 1075838979 /\
  parse_size [49; 54; 69] = Err ERANGE /\ parse_size [49; 77; 49; 71] = Err EINVAL.
Proof.
  split; [vm_compute; reflexivity|]. split; [|split; vm_compute; reflexivity].
  apply (proj1 (size_string_exact_partial [49; 71; 50; 77; 32; 51] ltac:(cbn; intuition discriminate) ltac:(cbn; intuition discriminate))). vm_compute. reflexivity.
Qed.
