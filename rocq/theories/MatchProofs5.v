(** Testing a name, and walking a tree *)
From Coq Require Import Permutation Sorted.
From Verif Require Import Base ArchiveBase FeatureFlags Locator EncoderSpec Match MatchSpec MatchProofs1 MatchProofs2 MatchProofs3 MatchProofs4.
Local Open Scope N_scope.

Section Test.
Variable qsort : forall A : Type, (A -> A -> comparison) -> list A -> list A.
Hypothesis Q : qsort_ok qsort.
Variable fnmatch : list N -> list N -> option bool.

(** The rule matches the name itself *)
Definition here (r : rule) (name : list N) (is_directory : bool) : Prop :=
  exists c, r_components r = [c] /\ fits fnmatch c name /\ (r_directory r = true -> is_directory = true).
(** What is left of the rule in the directory [name] *)
Definition next (r : rule) (name : list N) (r' : rule) : Prop :=
  (r_anchored r = false /\ r' = r) \/
  (exists c cs, r_components r = c :: cs /\ cs <> [] /\ fits fnmatch c name /\ r' = mkRule (r_negative r) true (r_directory r) cs).
(** fnmatch() is asked, and fails *)
Definition fails (r : rule) (name : list N) (is_directory : bool) : Prop :=
  exists c cs, r_components r = c :: cs /\ fnmatch c name = None /\ ((cs <> [] \/ r_directory r = true) -> is_directory = true).

Definition in_set (ch : list cmatch) (P : rule -> Prop) : Prop := exists r, In r (rules ch) /\ P r.
Lemma in_set_cons c l P : in_set (c :: l) P <-> (exists r, In r (rules1 c) /\ P r) \/ in_set l P.
Proof. unfold in_set, rules. cbn [flat_map]. setoid_rewrite in_app_iff. firstorder. Qed.
Lemma in_set_nil P : in_set [] P <-> False.
Proof. unfold in_set. cbn. firstorder. Qed.

Lemma sub_add_ok s c : wf_root s -> wf c -> wf_root (Some (sub_add s c)) /\ rules (m_children (sub_add s c)) = rules (children s) ++ rules1 c.
Proof.
  intros W Wc. unfold sub_add. destruct (root_of_wf s W) as (ch & E & Wch & <-). unfold root_of in E. rewrite E. split.
  - exists (children s ++ [c]). split; [reflexivity|]. apply Forall_app. auto.
  - cbn [add_child in_root m_children]. rewrite rules_app. unfold rules at 2. cbn [flat_map]. rewrite app_nil_r. reflexivity.
Qed.
Lemma fold_sub_ok cs : forall ch, Forall wf cs -> Forall wf ch ->
  fold_left (fun t c => sub_add (Some t) c) cs (in_root ch) = in_root (ch ++ cs).
Proof.
  induction cs as [|c cs IH]; intros ch W1 W2; cbn [fold_left]; [rewrite app_nil_r; reflexivity|]. inversion W1; subst. change (sub_add (Some (in_root ch)) c) with (in_root (ch ++ [c])).
  rewrite (IH (ch ++ [c])); [rewrite <- app_assoc; reflexivity|assumption|apply Forall_app; auto].
Qed.

Lemma wf_here c name d : wf c -> (exists r, In r (rules1 c) /\ here r name d) <->
  m_type c <> INNER /\ fits fnmatch (m_name c) name /\ (m_directory_only c = true -> d = true).
Proof.
  intros W. inversion W as [t n a dd Ht|n ch Hn Hw Ha]; subst; cbn [m_type m_name m_directory_only].
  - assert (E : exists neg, rules1 (CM t n a dd []) = [mkRule neg a dd [n]]) by (destruct t; cbn; eauto; congruence). destruct E as (neg & ->). split.
    + intros (r & [<- | []] & c & E & F & D). cbn in *. injection E as ->. auto.
    + intros (_ & F & D). eexists. split; [left; reflexivity|]. exists n. auto.
  - split; [|intros (H & _); congruence]. intros (r & I & c & E & _). exfalso. rewrite rules1_inner in I. apply in_map_iff in I. destruct I as (r0 & <- & I). cbn in E. injection E as -> E.
    apply in_flat_map in I. destruct I as (x & Ix & Ir). rewrite Forall_forall in Hw. pose proof (rules1_components x (Hw x Ix)) as K. rewrite Forall_forall in K. apply (K r0 Ir). exact E.
Qed.
Lemma wf_fails c name d : wf c -> (exists r, In r (rules1 c) /\ fails r name d) <->
  fnmatch (m_name c) name = None /\ (m_directory_only c = true -> d = true).
Proof.
  intros W. pose proof (rules1_nonempty c W) as Ne. inversion W as [t n a dd Ht|n ch Hn Hw Ha]; subst; cbn [m_type m_name m_directory_only].
  - assert (E : exists neg, rules1 (CM t n a dd []) = [mkRule neg a dd [n]]) by (destruct t; cbn; eauto; congruence). destruct E as (neg & ->). split.
    + intros (r & [<- | []] & c & cs & E & F & D). cbn in *. injection E as -> <-. auto.
    + intros (F & D). eexists. split; [left; reflexivity|]. exists n, []. cbn. split; [reflexivity|]. split; [exact F|]. intros [K | K]; [congruence|auto].
  - split.
    + intros (r & I & c & cs & E & F & D). rewrite rules1_inner in I. apply in_map_iff in I. destruct I as (r0 & <- & I). cbn in E. injection E as -> <-. split; [exact F|].
      intros _. apply D. left. apply in_flat_map in I. destruct I as (x & Ix & Ir). rewrite Forall_forall in Hw. pose proof (rules1_components x (Hw x Ix)) as K. rewrite Forall_forall in K. apply (K r0 Ir).
    + intros (F & D). rewrite rules1_inner in *. destruct (rules ch) as [|r0 l]; [cbn in Ne; congruence|]. exists (under n r0). split; [left; reflexivity|].
      exists n, (r_components r0). split; [reflexivity|]. split; [exact F|]. intros _. auto.
Qed.
Lemma wf_next c name r' : wf c -> (exists r, In r (rules1 c) /\ next r name r') <->
  (m_anchored c = false /\ In r' (rules1 c)) \/ (m_type c = INNER /\ fits fnmatch (m_name c) name /\ In r' (rules (m_children c))).
Proof.
  intros W. inversion W as [t n a dd Ht|n ch Hn Hw Ha]; subst; cbn [m_type m_name m_anchored m_children].
  - assert (E : exists neg, rules1 (CM t n a dd []) = [mkRule neg a dd [n]]) by (destruct t; cbn; eauto; congruence). destruct E as (neg & ->). split.
    + intros (r & [<- | []] & [(An & ->) | (c & cs & E & N0 & _)]); cbn in *; [left; auto|]. injection E as -> <-. congruence.
    + intros [(An & [<- | []]) | (K & _)]; [|congruence]. eexists. split; [left; reflexivity|]. left. auto.
  - rewrite rules1_inner. split.
    + intros (r & I & H). apply in_map_iff in I. destruct I as (r0 & <- & I). destruct H as [(An & _) | (c & cs & E & N0 & F & ->)]; [discriminate|]. cbn in E. injection E as -> <-.
      right. split; [reflexivity|]. split; [exact F|]. cbn. pose proof (proj1 (anchored_child ch Hw) Ha r0 I) as A0. destruct r0; cbn in *; subst; exact I.
    + intros [(K & _) | (_ & F & I)]; [discriminate|]. exists (under n r'). split; [apply in_map; exact I|]. right. exists n, (r_components r').
      split; [reflexivity|]. split; [|split; [exact F|]].
      * apply in_flat_map in I. destruct I as (x & Ix & Ir). rewrite Forall_forall in Hw. pose proof (rules1_components x (Hw x Ix)) as K. rewrite Forall_forall in K. apply (K r' Ir).
      * cbn. pose proof (proj1 (anchored_child ch Hw) Ha r' I) as A0. destruct r'; cbn in *; subst; reflexivity.
Qed.
Lemma wf_negative c r : wf c -> m_type c <> INNER -> In r (rules1 c) -> (r_negative r = true <-> m_type c = NEGATIVE).
Proof. intros W T I. destruct c as [t n a d ch]. cbn in *. destruct t; [destruct I as [<- | []]; cbn; split; discriminate|destruct I as [<- | []]; cbn; tauto|congruence]. Qed.

Definition with_sub (s : found) (sub : option cmatch) : Prop := fo_subtree s = sub.

Lemma leaf_here c name d (neg : bool) : wf c ->
  (exists r, In r (rules1 c) /\ r_negative r = neg /\ here r name d) <->
  m_type c = (if neg then NEGATIVE else POSITIVE) /\ fits fnmatch (m_name c) name /\ (m_directory_only c = true -> d = true).
Proof.
  intros W. split.
  - intros (r & I & Ng & H). destruct (proj1 (wf_here c name d W) (ex_intro _ r (conj I H))) as (T & F & D). split; [|auto].
    pose proof (wf_negative c r W T I) as K. destruct neg; [tauto|]. destruct (m_type c); [reflexivity| |congruence]. exfalso. assert (r_negative r = true) by (apply K; reflexivity). congruence.
  - intros (T & F & D). assert (T' : m_type c <> INNER) by (destruct neg; congruence). destruct (proj2 (wf_here c name d W) (conj T' (conj F D))) as (r & I & H).
    exists r. split; [exact I|]. split; [|exact H]. pose proof (wf_negative c r W T' I) as K. destruct neg; [apply K, T|]. destruct (r_negative r); [|reflexivity]. rewrite (proj1 K eq_refl) in T. discriminate.
Qed.

Lemma test_loop_ok name d : forall l s, Forall wf l -> wf_root (fo_subtree s) ->
  (test_loop fnmatch name d true l s = Err EINVAL /\ in_set l (fun r => fails r name d)) \/
  exists s', test_loop fnmatch name d true l s = Ok (inr s') /\ wf_root (fo_subtree s') /\ ~ in_set l (fun r => fails r name d) /\
    (fo_positive s' = true <-> fo_positive s = true \/ in_set l (fun r => r_negative r = false /\ here r name d)) /\
    (fo_negative s' = true <-> fo_negative s = true \/ in_set l (fun r => r_negative r = true /\ here r name d)) /\
    (forall r', In r' (rules (children (fo_subtree s'))) <-> In r' (rules (children (fo_subtree s))) \/ (d = true /\ in_set l (fun r => next r name r'))).
Proof.
  induction l as [|c l IH]; intros s W Ws.
  { right. exists s. cbn [test_loop]. split; [reflexivity|]. split; [exact Ws|]. setoid_rewrite in_set_nil. intuition. }
  inversion W as [|? ? Wc Wl]; subst. cbn [test_loop andb].
  set (s1 := if negb (m_anchored c) && d then mkFound (Some (sub_add (fo_subtree s) c)) (fo_positive s) (fo_negative s) true (fo_2nd s) else s).
  assert (H1 : wf_root (fo_subtree s1) /\ fo_positive s1 = fo_positive s /\ fo_negative s1 = fo_negative s /\
    forall r', In r' (rules (children (fo_subtree s1))) <-> In r' (rules (children (fo_subtree s))) \/ (d = true /\ m_anchored c = false /\ In r' (rules1 c))).
  { subst s1. destruct (m_anchored c) eqn:An; cbn [negb andb].
    - split; [exact Ws|]. split; [reflexivity|]. split; [reflexivity|]. intuition discriminate.
    - destruct d; cbn [andb]; [|split; [exact Ws|]; intuition discriminate].
      destruct (sub_add_ok (fo_subtree s) c Ws Wc) as (W1 & R1). cbn [fo_subtree fo_positive fo_negative]. split; [exact W1|]. split; [reflexivity|]. split; [reflexivity|].
      intros r'. cbn [children]. rewrite R1, in_app_iff. tauto. }
  clearbody s1. destruct H1 as (Ws1 & P1 & N1 & R1).
  (* a child that does not match *)
  assert (Skip : (~ (fits fnmatch (m_name c) name /\ (m_directory_only c = true -> d = true))) -> ~ (fnmatch (m_name c) name = None /\ (m_directory_only c = true -> d = true)) ->
    (test_loop fnmatch name d true l s1 = Err EINVAL /\ in_set (c :: l) (fun r => fails r name d)) \/
    exists s', test_loop fnmatch name d true l s1 = Ok (inr s') /\ wf_root (fo_subtree s') /\ ~ in_set (c :: l) (fun r => fails r name d) /\
    (fo_positive s' = true <-> fo_positive s = true \/ in_set (c :: l) (fun r => r_negative r = false /\ here r name d)) /\
    (fo_negative s' = true <-> fo_negative s = true \/ in_set (c :: l) (fun r => r_negative r = true /\ here r name d)) /\
    (forall r', In r' (rules (children (fo_subtree s'))) <-> In r' (rules (children (fo_subtree s))) \/ (d = true /\ in_set (c :: l) (fun r => next r name r')))).
  { intros Nf Nn. destruct (IH s1 Wl Ws1) as [(E & F) | (s' & E & W' & F & P' & N' & R')].
    - left. split; [exact E|]. apply in_set_cons. right. exact F.
    - right. exists s'. split; [exact E|]. split; [exact W'|]. rewrite !in_set_cons.
      rewrite (leaf_here c name d false Wc), (leaf_here c name d true Wc), (wf_fails c name d Wc). rewrite P', N', P1, N1. split; [tauto|]. split; [tauto|]. split; [tauto|].
      intros r'. rewrite in_set_cons, (wf_next c name r' Wc), R', R1. split; [tauto|].
      intros [H | (Hd & [[(An & I) | (T & F0 & I)] | H])]; [tauto|tauto| |tauto]. exfalso. apply Nf. split; [exact F0|]. intros _. exact Hd. }
  destruct (m_directory_only c && negb d) eqn:Dd.
  { apply andb_true_iff in Dd. destruct Dd as [D1 D2]. apply negb_true_iff in D2. subst d. apply Skip; intros (_ & K); specialize (K D1); discriminate. }
  assert (Dir : m_directory_only c = true -> d = true). { intros D1. rewrite D1 in Dd. destruct d; [reflexivity|discriminate]. }
  destruct (fnmatch (m_name c) name) as [[|]|] eqn:Fn.
  - assert (F : fits fnmatch (m_name c) name) by exact Fn.
    assert (Nf : ~ (exists r, In r (rules1 c) /\ fails r name d)) by (rewrite (wf_fails c name d Wc); intros (K & _); congruence).
    (* after the child's own part [s1] became [s2] *)
    assert (Go : forall s2, wf_root (fo_subtree s2) ->
      (fo_positive s2 = true <-> fo_positive s1 = true \/ m_type c = POSITIVE) ->
      (fo_negative s2 = true <-> fo_negative s1 = true \/ m_type c = NEGATIVE) ->
      (forall r', In r' (rules (children (fo_subtree s2))) <-> In r' (rules (children (fo_subtree s1))) \/ (m_type c = INNER /\ In r' (rules (m_children c)))) ->
      (test_loop fnmatch name d true l s2 = Err EINVAL /\ in_set (c :: l) (fun r => fails r name d)) \/
      exists s', test_loop fnmatch name d true l s2 = Ok (inr s') /\ wf_root (fo_subtree s') /\ ~ in_set (c :: l) (fun r => fails r name d) /\
      (fo_positive s' = true <-> fo_positive s = true \/ in_set (c :: l) (fun r => r_negative r = false /\ here r name d)) /\
      (fo_negative s' = true <-> fo_negative s = true \/ in_set (c :: l) (fun r => r_negative r = true /\ here r name d)) /\
      (forall r', In r' (rules (children (fo_subtree s'))) <-> In r' (rules (children (fo_subtree s))) \/ (d = true /\ in_set (c :: l) (fun r => next r name r')))).
    { intros s2 Ws2 P2 N2 R2. destruct (IH s2 Wl Ws2) as [(E & Fl) | (s' & E & W' & Fl & P' & N' & R')].
      - left. split; [exact E|]. apply in_set_cons. right. exact Fl.
      - right. exists s'. split; [exact E|]. split; [exact W'|]. rewrite !in_set_cons.
        rewrite (leaf_here c name d false Wc), (leaf_here c name d true Wc). rewrite P', N', P2, N2, P1, N1. split; [tauto|]. split; [tauto|]. split; [tauto|].
        intros r'. rewrite in_set_cons, (wf_next c name r' Wc), R', R2, R1.
        assert (Ti : m_type c = INNER -> d = true). { intros T. apply Dir. inversion Wc; subst; cbn in *; congruence. }
        tauto. }
    destruct (m_type c) eqn:T.
    + apply Go; cbn [fo_subtree fo_positive fo_negative]; auto; intuition discriminate.
    + apply Go; cbn [fo_subtree fo_positive fo_negative]; auto; intuition discriminate.
    + inversion Wc as [t n a dd Ht E|n ch Hn Hw Ha E]; subst; [cbn in T; congruence|]. cbn [m_children m_type] in *.
      destruct ch as [|c0 ch0]; [congruence|]. set (ch := c0 :: ch0) in *. clearbody ch.
      destruct (root_of_wf (fo_subtree s1) Ws1) as (ch1 & Er & Wch1 & Ec1). unfold root_of in Er. rewrite Er. rewrite (fold_sub_ok ch ch1 Hw Wch1).
      apply Go; cbn [fo_subtree fo_positive fo_negative]; try (intuition discriminate).
      * exists (ch1 ++ ch). split; [reflexivity|]. apply Forall_app. auto.
      * intros r'. cbn [children in_root m_children]. rewrite rules_app, in_app_iff, Ec1. tauto.
  - apply Skip; [unfold fits; intros (K & _); congruence|intros (K & _); congruence].
  - left. split; [reflexivity|]. apply in_set_cons. left. apply (wf_fails c name d Wc). auto.
Qed.

Definition name_ok (n : list N) : Prop := n <> [] /\ n <> [46] /\ n <> [46; 46].
Lemma name_ok_test n : name_ok n -> (match n with [] => true | _ => false end || dot_or_dot_dot n) = false.
Proof.
  intros (A & B & C). destruct n as [|x n]; [congruence|]. cbn [orb]. unfold dot_or_dot_dot. rewrite !orb_false_iff. split; [destruct (beq _ [46]) eqn:E|destruct (beq _ [46; 46]) eqn:E]; try reflexivity; apply beq_eq in E; congruence.
Qed.

Definition says (m : option cmatch) (name : list N) (d : bool) : Prop :=
  in_set (children m) (fun r => r_negative r = false /\ here r name d) /\ ~ in_set (children m) (fun r => r_negative r = true /\ here r name d).

Lemma test_ok m name d : wf_root m -> name_ok name ->
  (test qsort fnmatch m name d true = Err EINVAL /\ in_set (children m) (fun r => fails r name d)) \/
  exists b sub, test qsort fnmatch m name d true = Ok (b, sub) /\ wf_root sub /\ ~ in_set (children m) (fun r => fails r name d) /\
    (b = true <-> says m name d) /\
    (forall r', In r' (rules (children sub)) <-> d = true /\ in_set (children m) (fun r => next r name r')).
Proof.
  intros W Hn. unfold test. rewrite (name_ok_test name Hn).
  assert (Wl : Forall wf (children m)). { destruct m as [m|]; [destruct W as (ch & -> & Wc); exact Wc|constructor]. }
  fold (children m). destruct (test_loop_ok name d (children m) (mkFound None false false false false) Wl I) as [(E & F) | (s & E & W' & F & P' & N' & R')].
  - left. rewrite E. auto.
  - right. rewrite E. cbn [bind fo_subtree fo_positive fo_negative andb] in *.
    assert (Hsub : exists sub, (if fo_2nd s && fo_unanchored s then match fo_subtree s with Some t => let! t := normalize qsort t in Ok (Some t) | None => Ok None end else Ok (fo_subtree s)) = Ok sub /\
      wf_root sub /\ same (rules (children sub)) (rules (children (fo_subtree s)))).
    { destruct (fo_2nd s && fo_unanchored s); [|exists (fo_subtree s); auto using same_refl]. destruct (fo_subtree s) as [t|]; [|exists None; auto using same_refl].
      destruct (normalize_root qsort Q t W') as (t' & En & Wt & Rt & _). rewrite En. exists (Some t'). auto. }
    destruct Hsub as (sub & Es & Wsub & Rsub). rewrite Es. cbn [bind]. eexists _, sub. split; [reflexivity|]. split; [exact Wsub|]. split; [exact F|]. split.
    + unfold says. destruct (fo_negative s).
      * split; [discriminate|]. intros (_ & K). exfalso. apply K. destruct (proj1 N' eq_refl) as [K' | K']; [discriminate|exact K'].
      * rewrite P'. split.
        -- intros [K | K]; [discriminate|]. split; [exact K|]. intros K2. apply diff_false_true, N'. right. exact K2.
        -- intros (K & _). right. exact K.
    + intros r'. rewrite (Rsub r'), R'. cbn. tauto.
Qed.

(** Without asking for the subtree *)
Lemma test_loop_quick name d : forall l s s' t, (fo_negative s = false) -> fo_positive s = fo_positive t -> fo_negative t = false ->
  test_loop fnmatch name d true l s = Ok (inr s') ->
  (fo_negative s' = true /\ test_loop fnmatch name d false l t = Ok (inl false)) \/
  (fo_negative s' = false /\ exists t', test_loop fnmatch name d false l t = Ok (inr t') /\ fo_negative t' = false /\ fo_positive t' = fo_positive s').
Proof.
  assert (Keep : forall l s s', test_loop fnmatch name d true l s = Ok (inr s') -> fo_negative s = true -> fo_negative s' = true).
  { induction l as [|c l IH]; intros s s' H Hs; cbn [test_loop] in H; [congruence|].
    set (s1 := if true && _ && d then _ else s) in H. assert (H1 : fo_negative s1 = true) by (subst s1; destruct (true && negb (m_anchored c) && d); exact Hs). clearbody s1.
    destruct (m_directory_only c && negb d); [eapply IH; eassumption|]. destruct (fnmatch (m_name c) name) as [[|]|]; [|eapply IH; eassumption|discriminate].
    destruct (m_type c); cbn [negb] in H; try (eapply IH; [eassumption|]; assumption || reflexivity). eapply IH; [eassumption|]. destruct (m_children c); [exact H1|exact H1]. }
  induction l as [|c l IH]; intros s s' t Hs Hp Ht H; cbn [test_loop] in H |- *.
  - injection H as <-. right. split; [exact Hs|]. exists t. auto.
  - set (s1 := if true && negb (m_anchored c) && d then mkFound (Some (sub_add (fo_subtree s) c)) (fo_positive s) (fo_negative s) true (fo_2nd s) else s) in H.
    assert (H1 : fo_negative s1 = fo_negative s /\ fo_positive s1 = fo_positive s) by (subst s1; destruct (true && negb (m_anchored c) && d); auto). clearbody s1. destruct H1 as [H1 H2].
    cbn [andb]. rewrite Hs in H1. rewrite Hp in H2. destruct (m_directory_only c && negb d); [eapply IH; eauto|]. destruct (fnmatch (m_name c) name) as [[|]|]; [|eapply IH; eauto|discriminate].
    destruct (m_type c); cbn [negb] in H |- *.
    + refine (IH _ s' _ _ _ _ H); cbn; auto.
    + left. split; [|reflexivity]. eapply Keep; [exact H|]. reflexivity.
    + destruct (m_children c) as [|c0 cs]; [eapply IH; eauto|]. refine (IH _ s' _ _ _ _ H); cbn; auto.
Qed.
Lemma test_quick m name d b sub : test qsort fnmatch m name d true = Ok (b, sub) -> test qsort fnmatch m name d false = Ok (b, None).
Proof.
  unfold test. destruct (_ || _); [discriminate|]. intros H.
  destruct (test_loop fnmatch name d true (match m with None => [] | Some m => m_children m end) (mkFound None false false false false)) as [[b0|s]|e| |] eqn:E; cbn [bind] in H; try discriminate.
  - exfalso. clear -E. revert E. generalize (mkFound None false false false false). induction (match m with None => [] | Some m => m_children m end) as [|c l IH]; intros s E; cbn [test_loop] in E; [discriminate|].
    destruct (m_directory_only c && negb d); [eapply IH; exact E|]. destruct (fnmatch (m_name c) name) as [[|]|]; [|eapply IH; exact E|discriminate]. destruct (m_type c); cbn [negb] in E; eapply IH; exact E.
  - assert (Hb : b = if fo_negative s then false else fo_positive s).
    { destruct (true && fo_2nd s && fo_unanchored s); [destruct (fo_subtree s) as [t|]; [destruct (normalize qsort t); cbn [bind] in H; try discriminate|]|]; cbn [bind] in H; congruence. }
    destruct (test_loop_quick name d _ (mkFound None false false false false) s (mkFound None false false false false) eq_refl eq_refl eq_refl E) as [(Hn & K) | (Hn & t & K & Kn & Kp)]; rewrite K; cbn [bind andb].
    + rewrite Hb, Hn. reflexivity.
    + rewrite Kn, Kp, Hb, Hn. cbn [bind]. f_equal. f_equal.
      (* nothing was collected *)
      assert (G : forall l s0 s1, test_loop fnmatch name d false l s0 = Ok (inr s1) -> fo_subtree s1 = fo_subtree s0).
      { clear. induction l as [|c l IH]; intros s0 s1 E; cbn [test_loop] in E; [injection E as <-; reflexivity|]. cbn [andb] in E.
        destruct (m_directory_only c && negb d); [eapply IH; exact E|]. destruct (fnmatch (m_name c) name) as [[|]|]; [|eapply IH; exact E|discriminate].
        destruct (m_type c); cbn [negb] in E; [apply IH in E; exact E|discriminate|]. apply IH in E. rewrite E. destruct (m_children c); reflexivity. }
      apply G in K. exact K.
Qed.
End Test.
