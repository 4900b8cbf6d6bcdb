(** Normalising keeps the rules, and gives a normal form. *)
From Coq Require Import Permutation Sorted.
From Verif Require Import Base ArchiveBase FeatureFlags Locator DecoderProofs5 EncoderSpec EncoderProofs3 Match MatchSpec MatchProofs1.
Local Open Scope N_scope.

(** ** compare_match orders *)
Fixpoint compare_list (cx cy : list cmatch) : comparison :=
  match cx, cy with
  | [], [] => Eq
  | [], _ :: _ => Gt
  | _ :: _, [] => Lt
  | x :: cx, y :: cy => lex (compare_match x y) (compare_list cx cy)
  end.
Definition key_cmp (x y : cmatch) : comparison :=
  lex (mtype_num (m_type x) ?= mtype_num (m_type y))
    (lex (strcmp (m_name x) (m_name y)) (lex (bool_cmp (m_anchored x) (m_anchored y)) (bool_cmp (m_directory_only x) (m_directory_only y)))).

Lemma lex_assoc a b c : lex a (lex b c) = lex (lex a b) c.
Proof. destruct a; reflexivity. Qed.
Lemma compare_match_eq x y : compare_match x y = lex (key_cmp x y) (compare_list (m_children x) (m_children y)).
Proof.
  destruct x as [tx nx ax dx cx], y as [ty ny ay dy cy]. unfold key_cmp. cbn [m_type m_name m_anchored m_directory_only m_children compare_match].
  rewrite <- !lex_assoc. reflexivity.
Qed.

Definition good {A} (cmp : A -> A -> comparison) : Prop :=
  (forall x y, cmp x y = CompOpp (cmp y x)) /\ (forall x y, cmp x y = Eq <-> x = y) /\ (forall x y z, cmp x y = Lt -> cmp y z = Lt -> cmp x z = Lt).

Lemma bool_good : good bool_cmp.
Proof. split; [|split]; intros [|] [|]; cbn; try (split; congruence); try reflexivity; intros [|]; cbn; congruence. Qed.
Lemma num_good : good (fun a b => mtype_num a ?= mtype_num b).
Proof.
  split; [|split].
  - intros x y. apply N.compare_antisym.
  - intros x y. rewrite N.compare_eq_iff. destruct x, y; cbn; split; congruence.
  - intros x y z. rewrite !N.compare_lt_iff. lia.
Qed.
Lemma str_good : good strcmp.
Proof. split; [intros; apply strcmp_antisym|]. split; [intros x y; split; [apply strcmp_eq|intros ->; apply strcmp_refl]|]. intros x y z. apply strcmp_trans. Qed.

Definition key (m : cmatch) := (m_type m, m_name m, m_anchored m, m_directory_only m).
Lemma lex_lt a b : lex a b = Lt <-> a = Lt \/ a = Eq /\ b = Lt.
Proof. destruct a; cbn; intuition congruence. Qed.
Lemma lex_eq a b : lex a b = Eq <-> a = Eq /\ b = Eq.
Proof. destruct a; cbn; intuition congruence. Qed.
Lemma lex_opp a b : CompOpp (lex a b) = lex (CompOpp a) (CompOpp b).
Proof. destruct a; reflexivity. Qed.

Lemma key_antisym x y : key_cmp x y = CompOpp (key_cmp y x).
Proof.
  unfold key_cmp. rewrite !lex_opp, <- N.compare_antisym, <- (proj1 str_good), <- !(proj1 bool_good). reflexivity.
Qed.
Lemma key_eq x y : key_cmp x y = Eq <-> key x = key y.
Proof.
  unfold key_cmp, key. rewrite !lex_eq, (proj1 (proj2 num_good)), (proj1 (proj2 str_good)), !(proj1 (proj2 bool_good)). intuition congruence.
Qed.
Lemma key_trans x y z : key_cmp x y = Lt -> key_cmp y z = Lt -> key_cmp x z = Lt.
Proof.
  unfold key_cmp. rewrite !lex_lt. rewrite !(proj1 (proj2 num_good)), !(proj1 (proj2 str_good)), !(proj1 (proj2 bool_good)).
  intros H1 H2.
  destruct H1 as [H1 | (E1 & [H1 | (F1 & [H1 | (G1 & H1)])])]; destruct H2 as [H2 | (E2 & [H2 | (F2 & [H2 | (G2 & H2)])])];
  rewrite ?E1, ?F1, ?G1 in *; rewrite ?E2, ?F2, ?G2 in *; 
  first [ left; first [assumption | eapply (proj2 (proj2 num_good)); eassumption ]
        | right; split; [reflexivity|]; first
            [ left; first [assumption | eapply (proj2 (proj2 str_good)); eassumption ]
            | right; split; [reflexivity|]; first
               [ left; first [assumption | eapply (proj2 (proj2 bool_good)); eassumption ]
               | right; split; [reflexivity|]; first [assumption | eapply (proj2 (proj2 bool_good)); eassumption] ] ] ].
Qed.
Lemma key_lt_eq x y z : key x = key y -> key_cmp x z = key_cmp y z /\ key_cmp z x = key_cmp z y.
Proof. unfold key, key_cmp. intros E. injection E as -> -> -> ->. auto. Qed.

Lemma list_antisym cx : Forall (fun x => forall y, compare_match x y = CompOpp (compare_match y x)) cx ->
  forall cy, compare_list cx cy = CompOpp (compare_list cy cx).
Proof. induction 1 as [|x cx H _ IH]; intros [|y cy]; cbn [compare_list]; try reflexivity. rewrite lex_opp, <- IH, <- H. reflexivity. Qed.
Lemma cmp_antisym x : forall y, compare_match x y = CompOpp (compare_match y x).
Proof.
  induction x as [t n a d ch IH] using cmatch_ind'. intros y. rewrite !compare_match_eq, lex_opp, <- key_antisym. f_equal. apply list_antisym, IH.
Qed.
Lemma cmp_eq x : forall y, compare_match x y = Eq -> x = y.
Proof.
  induction x as [t n a d ch IH] using cmatch_ind'. intros y. rewrite compare_match_eq, lex_eq, key_eq. intros (K & L).
  destruct y as [ty ny ay dy cy]. unfold key in K. cbn in K. injection K as -> -> -> ->. f_equal. cbn [m_children] in L.
  clear -IH L. revert cy L. induction IH as [|x ch H _ IH]; intros [|y cy]; cbn [compare_list]; try discriminate; [reflexivity|].
  rewrite lex_eq. intros (E & L). f_equal; auto.
Qed.
Lemma cmp_refl x : compare_match x x = Eq.
Proof.
  induction x as [t n a d ch IH] using cmatch_ind'. rewrite compare_match_eq. rewrite (proj2 (key_eq _ _) eq_refl). cbn [lex m_children].
  induction IH as [|x ch H _ IH]; cbn [compare_list]; [reflexivity|]. rewrite H. exact IH.
Qed.
Lemma cmp_trans x : forall y z, compare_match x y = Lt -> compare_match y z = Lt -> compare_match x z = Lt.
Proof.
  induction x as [t n a d ch IH] using cmatch_ind'. intros y z. rewrite !compare_match_eq, !lex_lt. intros H1 H2.
  destruct H1 as [H1 | (E1 & H1)], H2 as [H2 | (E2 & H2)].
  - left. eapply key_trans; eassumption.
  - left. apply key_eq in E2. rewrite <- (proj2 (key_lt_eq _ _ _ E2)). exact H1.
  - left. apply key_eq in E1. rewrite (proj1 (key_lt_eq _ _ _ E1)). exact H2.
  - right. split; [apply key_eq in E1, E2; apply key_eq; congruence|].
    cbn [m_children] in *. set (cy := m_children y) in *. set (cz := m_children z) in *. clearbody cy cz. clear -IH H1 H2. revert cy cz H1 H2.
    induction IH as [|x ch H _ IH]; intros [|y cy] [|z cz]; cbn [compare_list]; try discriminate; try reflexivity.
    rewrite !lex_lt. intros [H1 | (E1 & H1)] [H2 | (E2 & H2)].
    + left. eapply H; eassumption.
    + left. apply cmp_eq in E2. subst. exact H1.
    + left. apply cmp_eq in E1. subst. exact H2.
    + right. apply cmp_eq in E1. subst y. split; [exact E2|eauto].
Qed.
Lemma orders_match : orders compare_match.
Proof.
  apply orders_of; [exact cmp_refl|intros x y; apply cmp_antisym|intros x y z; apply cmp_trans|]. intros x y z H. apply cmp_eq in H. subst. reflexivity.
Qed.

(** ** Normal form *)
Definition key_lt (x y : cmatch) : Prop := key_cmp x y = Lt.
Inductive normal : cmatch -> Prop :=
| normal_intro t n a d ch : Forall normal ch -> StronglySorted key_lt ch -> normal (CM t n a d ch).

Lemma merge_nodes_iff a b : match merge_nodes a b with
  | Ok m => key a = key b /\ key m = key a /\ m_children m = m_children a ++ m_children b
  | Err e => e = EDOM /\ key a <> key b
  | _ => False end.
Proof.
  destruct a as [ta na aa da ca], b as [tb nb ab db cb]. unfold merge_nodes, key. cbn.
  assert (T : mtype_eqb ta tb = true <-> ta = tb) by (destruct ta, tb; cbn; split; congruence).
  destruct (mtype_eqb ta tb); cbn [negb]; [|split; [reflexivity|]; intros E; injection E; intros; apply diff_false_true; apply T; assumption].
  destruct (Bool.eqb aa ab) eqn:Ea; cbn [negb]; [|split; [reflexivity|]; intros E; injection E; intros; subst; rewrite eqb_reflx in Ea; discriminate].
  destruct (Bool.eqb da db) eqn:Ed; cbn [negb]; [|split; [reflexivity|]; intros E; injection E; intros; subst; rewrite eqb_reflx in Ed; discriminate].
  destruct (beq na nb) eqn:En; cbn [negb]; [|split; [reflexivity|]; intros E; injection E; intros; subst; rewrite beq_refl in En; discriminate].
  apply eqb_prop in Ea, Ed. apply beq_eq in En. assert (ta = tb) by (apply T; reflexivity). subst. auto.
Qed.


(** Equal as sets of rules *)
Definition same (a b : list rule) : Prop := forall r, In r a <-> In r b.
Lemma same_refl a : same a a. Proof. unfold same. tauto. Qed.
Lemma same_trans a b c : same a b -> same b c -> same a c.
Proof. unfold same. intros H1 H2 r. rewrite H1. apply H2. Qed.
Lemma same_app a b a' b' : same a a' -> same b b' -> same (a ++ b) (a' ++ b').
Proof. unfold same. intros H1 H2 r. rewrite !in_app_iff, H1, H2. reflexivity. Qed.
Lemma same_map f a b : same a b -> same (map f a) (map f b).
Proof. unfold same. intros H r. rewrite !in_map_iff. split; intros (x & E & I); exists x; (split; [exact E|apply H, I]). Qed.
Lemma same_rules_perm a b : Permutation a b -> same (rules a) (rules b).
Proof. intros P r. unfold rules. rewrite !in_flat_map. split; intros (x & I & R); exists x; (split; [|exact R]); [apply (Permutation_in _ P I)|apply (Permutation_in _ (Permutation_sym P) I)]. Qed.

(** Merging two nodes *)
Lemma merge_wf a b m : wf a -> wf b -> merge_nodes a b = Ok m ->
  wf m /\ key m = key a /\ same (rules1 m) (rules1 a ++ rules1 b) /\ depth m = Nat.max (depth a) (depth b).
Proof.
  intros Wa Wb H. pose proof (merge_nodes_iff a b) as K. rewrite H in K. destruct K as (K1 & K2 & K3).
  destruct a as [ta na aa da ca], b as [tb nb ab db cb], m as [t n a d c]. unfold key in *. cbn in *. injection K1 as -> -> -> ->. injection K2 as -> -> -> ->. subst c.
  split; [|split; [reflexivity|]].
  - inversion Wa; subst; inversion Wb; subst; cbn [app]; try congruence.
    constructor; [destruct ca; [congruence|discriminate]|apply Forall_app; auto|apply Forall_app; auto].
  - split.
    + destruct tb; cbn.
      * intros r. cbn. tauto.
      * intros r. cbn. tauto.
      * rewrite <- map_app. apply same_map. fold (rules (ca ++ cb)) (rules ca) (rules cb). rewrite rules_app. apply same_refl.
    + f_equal. clear. induction ca as [|x ca IH]; cbn [app fold_right]; [lia|]. rewrite IH. lia.
Qed.

Lemma key_anchored x y : key x = key y -> m_anchored x = m_anchored y.
Proof. unfold key. congruence. Qed.

Section Normalize.
Variable qsort : forall A : Type, (A -> A -> comparison) -> list A -> list A.
Hypothesis Q : qsort_ok qsort.

Definition nice (P : cmatch -> Prop) (m m' : cmatch) : Prop :=
  key m' = key m /\ same (rules (m_children m')) (rules (m_children m)) /\ (depth m' <= depth m)%nat /\ normal m' /\ P m'.

Definition good_children (m : cmatch) : Prop :=
  Forall wf (m_children m) /\ (m_children m <> [] -> m_type m = INNER /\ m_anchored m = true /\ m_directory_only m = true).

Lemma wf_good m : wf m -> good_children m.
Proof. intros W. inversion W; subst; split; cbn; auto; try constructor; congruence. Qed.

Lemma rules_nil_iff ch : Forall wf ch -> (same (rules ch) [] -> ch = []).
Proof.
  intros W S. destruct ch as [|c ch]; [reflexivity|]. inversion W as [|? ? W1 _]; subst. pose proof (rules1_nonempty c W1) as K. destruct (rules1 c) as [|r l] eqn:E; [congruence|].
  exfalso. apply (S r). unfold rules. cbn [flat_map]. rewrite E. left. reflexivity.
Qed.

(** The rules of a node with given key depend on those of its children only. *)
Lemma rules1_same m m' : key m' = key m -> same (rules (m_children m')) (rules (m_children m)) -> same (rules1 m') (rules1 m).
Proof.
  destruct m as [t n a d c], m' as [t' n' a' d' c']. unfold key. cbn. intros E S. injection E as -> -> -> ->.
  destruct t; [apply same_refl|apply same_refl|]. apply same_map, S.
Qed.

(** The key of a rule's first node *)
Lemma normalized_wf m m' : wf m -> key m' = key m -> Forall wf (m_children m') -> same (rules (m_children m')) (rules (m_children m)) ->
  Forall (fun c => m_anchored c = true) (m_children m') -> wf m'.
Proof.
  intros W E F S A. destruct m as [t n a d c], m' as [t' n' a' d' c']. unfold key in E. cbn in *. injection E as -> -> -> ->.
  inversion W as [? ? ? ? Ht|? ? Hn Hw Ha]; subst.
  - rewrite (rules_nil_iff c' F S). constructor. exact Ht.
  - constructor; [|exact F|exact A]. intros ->. apply Hn. apply rules_nil_iff; [exact Hw|]. intros r. symmetry. apply S.
Qed.

Lemma anchored_child ch : Forall wf ch -> (Forall (fun c => m_anchored c = true) ch <-> forall r, In r (rules ch) -> r_anchored r = true).
Proof.
  intros W. split.
  - intros A r H. unfold rules in H. apply in_flat_map in H. destruct H as (c & I & R). rewrite Forall_forall in A, W.
    pose proof (rules1_components c (W c I)) as K. rewrite Forall_forall in K. apply (K r R). apply A, I.
  - intros H. apply Forall_forall. intros c I. rewrite Forall_forall in W. specialize (W c I). pose proof (rules1_nonempty c W) as N0.
    inversion W as [t n a d Ht|n ch0 Hn Hw Ha]; subst; [|reflexivity]. cbn [m_anchored]. clear W N0.
    destruct t; try congruence; [apply (H (mkRule false a d [n]))|apply (H (mkRule true a d [n]))]; unfold rules; apply in_flat_map; eexists; (split; [exact I|cbn; left; reflexivity]).
Qed.

Lemma fold_depth_le ch k : (fold_right (fun c n => Nat.max (depth c) n) O ch <= k)%nat <-> Forall (fun c => depth c <= k)%nat ch.
Proof.
  induction ch as [|c ch IH]; cbn [fold_right]; [split; [constructor|lia]|]. rewrite Forall_cons_iff, <- IH. lia.
Qed.
End Normalize.
