(** Seeking: paths, and places in a tree. *)
From Verif Require Import Base FeatureFlags ArchiveBase Bst Decoder DecoderSpec DecoderProofs5 Encoder EncoderProofs RoundTrip1 RoundTrip2 RoundTrip3 RoundTrip4 Seek SeekSpec.
Local Open Scope N_scope.

(** ** Paths *)
Lemma names_slash p : names_of (47 :: p) = names_of p.
Proof. reflexivity. Qed.
Lemma names_skip p : names_of (skip_slashes p) = names_of p.
Proof. induction p as [|c p IH]; [reflexivity|]. cbn [skip_slashes]. destruct (N.eqb_spec c 47) as [-> | _]; [|reflexivity]. rewrite IH. reflexivity. Qed.
Lemma skip_idem p : skip_slashes (skip_slashes p) = skip_slashes p.
Proof. induction p as [|c p IH]; [reflexivity|]. cbn [skip_slashes]. destruct (N.eqb_spec c 47) as [-> | E]; [exact IH|]. cbn [skip_slashes]. apply N.eqb_neq in E. rewrite E. reflexivity. Qed.
Lemma skip_head p : match skip_slashes p with [] => True | c :: _ => c <> 47 end.
Proof. induction p as [|c p IH]; [exact I|]. cbn [skip_slashes]. destruct (N.eqb_spec c 47) as [-> | E]; [exact IH|exact E]. Qed.

Lemma to_slash_spec p : let (c, r) := to_slash p in p = c ++ r /\ ~ In 47 c /\ match r with [] => True | x :: _ => x = 47 end.
Proof.
  induction p as [|x p IH]; cbn [to_slash]; [auto|]. destruct (N.eqb_spec x 47) as [-> | E]; [auto|].
  destruct (to_slash p) as [c r]. destruct IH as (A & B & C). split; [cbn; rewrite A; reflexivity|]. split; [|exact C]. intros [H | H]; [congruence|auto].
Qed.

Lemma pieces_nonnil p : pieces p <> [].
Proof. destruct p as [|c p]; cbn; [discriminate|]. destruct (c =? 47); [discriminate|]. destruct (pieces p); discriminate. Qed.
Lemma pieces_app c r : ~ In 47 c -> match r with [] => True | x :: _ => x = 47 end ->
  pieces (c ++ r) = match pieces r with [] => [] | w :: ws => (c ++ w) :: ws end.
Proof.
  intros H Hr. induction c as [|x c IH]; cbn [app].
  - destruct (pieces r) as [|w ws] eqn:E; [|reflexivity]. reflexivity.
  - cbn [pieces]. assert (E : x <> 47) by (intros ->; apply H; left; reflexivity). apply N.eqb_neq in E. rewrite E.
    rewrite IH by (intros Hc; apply H; right; exact Hc). destruct (pieces r) eqn:P; [destruct (pieces_nonnil _ P)|]. reflexivity.
Qed.
Lemma names_comp c r : c <> [] -> ~ In 47 c -> match r with [] => True | x :: _ => x = 47 end -> names_of (c ++ r) = c :: names_of r.
Proof.
  intros Hc Hs Hr. unfold names_of. rewrite pieces_app by assumption.
  assert (P : exists ws, pieces r = [] :: ws).
  { destruct r as [|x r]; [exists []; reflexivity|]. subst x. eexists. reflexivity. }
  destruct P as [ws P]. rewrite P, app_nil_r. cbn [filter]. rewrite beq_refl. cbn [negb].
  assert (E : beq c [] = false) by (apply beq_neq; exact Hc). rewrite E. reflexivity.
Qed.

Lemma component_none p q : get_component p = (None, q) -> names_of p = [] /\ q = [].
Proof.
  unfold get_component. rewrite <- (names_skip p). pose proof (skip_head p) as Hh. pose proof (to_slash_spec (skip_slashes p)) as T.
  destruct (to_slash (skip_slashes p)) as [c r]. destruct T as (A & B & C). destruct c; [|discriminate]. intros H. injection H as <-.
  cbn [app] in A. rewrite A in *. destruct r as [|x r]; [auto|]. subst x. congruence.
Qed.
Lemma component_some p c q : get_component p = (Some c, q) ->
  names_of p = c :: names_of q /\ c <> [] /\ ~ In 47 c /\ (q = [] <-> names_of q = []) /\
  exists r, skip_slashes p = c ++ r /\ q = skip_slashes r /\ match r with [] => True | x :: _ => x = 47 end.
Proof.
  unfold get_component. rewrite <- (names_skip p). pose proof (to_slash_spec (skip_slashes p)) as T.
  destruct (to_slash (skip_slashes p)) as [c' r]. destruct T as (A & B & C). destruct c' as [|x c']; [discriminate|]. intros H. injection H as <- <-.
  assert (Hn : x :: c' <> []) by discriminate. set (c0 := x :: c') in *. clearbody c0. rewrite A, (names_comp c0 r Hn B C).
  split; [rewrite names_skip; reflexivity|]. split; [exact Hn|]. split; [exact B|]. split; [|exists r; auto].
  rewrite names_skip. split; [intros E; rewrite <- (names_skip r), E; reflexivity|].
  intros E. rewrite <- (names_skip r) in E. pose proof (skip_head r) as Hh. destruct (skip_slashes r) as [|y r'] eqn:R; [reflexivity|]. exfalso.
  pose proof (to_slash_spec (y :: r')) as T. destruct (to_slash (y :: r')) as [c1 r1]. destruct T as (A1 & B1 & C1).
  assert (c1 <> []). { intros ->. cbn in A1. subst r1. congruence. }
  rewrite A1, (names_comp c1 r1) in E by assumption. discriminate.
Qed.

Lemma match_spec p c q name : get_component p = (Some c, q) -> is_component name ->
  match_component p name = if beq name c then match q with [] => MATCH_FINAL | _ => MATCH_MORE end else MATCH_NO.
Proof.
  intros G (N1 & _ & N2 & _). apply component_some in G. destruct G as (_ & C1 & C2 & _ & r & R1 & R2 & R3). unfold match_component. rewrite R1.
  destruct (beq name c) eqn:E.
  - apply beq_eq in E. subst name. rewrite takeN_app_exact by reflexivity. rewrite beq_refl. cbn [negb]. rewrite dropN_app_exact by reflexivity.
    destruct r as [|x r]; [cbn in R2; subst q; reflexivity|]. subst x. change (47 =? 47) with true. cbn [negb]. rewrite <- R2. reflexivity.
  - apply beq_neq in E. destruct (beq (takeN (len name) (c ++ r)) name) eqn:F; cbn [negb]; [|reflexivity]. apply beq_eq in F.
    destruct (N.le_gt_cases (len name) (len c)) as [L | L].
    + rewrite takeN_app_le in F by exact L. rewrite dropN_app_le by exact L.
      pose proof (takeN_dropN (len name) c) as S. rewrite F in S. destruct (dropN (len name) c) as [|y z] eqn:D.
      * rewrite app_nil_r in S. congruence.
      * cbn [app]. assert (Y : y <> 47) by (intros ->; apply C2; rewrite <- S; apply in_or_app; right; left; reflexivity).
        apply N.eqb_neq in Y. rewrite Y. reflexivity.
    + exfalso. destruct r as [|y r]; [rewrite app_nil_r in F; apply (f_equal len) in F; rewrite len_takeN in F; lia|]. subst y.
      apply N2. rewrite <- F. rewrite takeN_app_ge by lia. apply in_or_app. right.
      assert (Z : 0 < len name - len c) by lia. unfold takeN. destruct (N.to_nat (len name - len c)) eqn:Q; [lia|]. left. reflexivity.
Qed.

(** ** Places in a tree *)
Lemma at_snoc t p m ents c t' : at_path t p (TDir m ents) -> In (c, t') ents -> at_path t (p ++ [c]) t'.
Proof.
  intros H. remember (TDir m ents) as u eqn:U. induction H; intros I; cbn [app].
  - subst t. econstructor; [exact I|constructor].
  - econstructor; [eassumption|]. auto.
Qed.
Lemma at_app t p q t' : at_path t (p ++ q) t' -> exists u, at_path t p u /\ at_path u q t'.
Proof.
  revert t. induction p as [|c p IH]; intros t H; cbn [app] in H; [exists t; split; [constructor|exact H]|].
  inversion H as [|m ents ? u ? ? I A]; subst. destruct (IH _ A) as (v & V1 & V2). exists v. split; [econstructor; eassumption|exact V2].
Qed.
Lemma at_trans t p u q t' : at_path t p u -> at_path u q t' -> at_path t (p ++ q) t'.
Proof. induction 1; intros H2; cbn [app]; [exact H2|]. econstructor; eauto. Qed.

Lemma nodup_in {A B} (l : list (A * B)) a x y : NoDup (map fst l) -> In (a, x) l -> In (a, y) l -> x = y.
Proof.
  induction l as [|[a' z] l IH]; [contradiction|]. cbn [map fst]. intros ND [E1 | I1] [E2 | I2]; inversion ND; subst.
  - congruence.
  - injection E1 as -> ->. exfalso. apply H1. apply (in_map fst) in I2. exact I2.
  - injection E2 as -> ->. exfalso. apply H1. apply (in_map fst) in I1. exact I1.
  - auto.
Qed.
Lemma at_unique t p u v : distinct_names t -> at_path t p u -> at_path t p v -> u = v.
Proof.
  intros D H. revert v D. induction H as [t|m ents c t p u I A IH]; intros v D H; inversion H as [|? ? ? t2 ? ? I2 A2]; subst; [reflexivity|].
  assert (E : t = t2) by (eapply nodup_in; [exact (D [] m ents (at_here _))|exact I|exact I2]). subst t2.
  apply IH; [|exact A2]. intros q m' ents' Q. eapply (D (c :: q)). econstructor; eassumption.
Qed.

Lemma at_dec ff t p u : dec_tree ff t -> at_path t p u -> dec_tree ff u /\ Forall is_component p.
Proof.
  intros D H. induction H as [t|m ents c t p u I A IH]; [auto|]. inversion D as [| | | |? ? _ _ F]; subst. rewrite Forall_forall in F.
  destruct (F _ I) as [F1 F2]. cbn [fst snd] in *. destruct (IH F2). auto.
Qed.
Lemma at_deep t p u : at_path t p u -> forall k, deep k t -> exists k', (k' + length p = k)%nat /\ deep k' u.
Proof.
  induction 1 as [t|m ents c t p u I A IH]; intros k D; [exists k; split; [cbn; lia|exact D]|].
  inversion D as [| | | |? ? |k0 ? ? F]; subst; [destruct I|]. rewrite Forall_forall in F. destruct (IH k0 (F _ I)) as (k' & K1 & K2).
  exists k'. split; [cbn; lia|exact K2].
Qed.
