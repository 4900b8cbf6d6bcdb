From Verif Require Import Base Bst.
From Coq Require Import Sorting.Permutation Sorting.Sorted.
Local Open Scope N_scope.

Section P.
Context {A : Type}.

Inductive tree := Leaf | Node (l : tree) (x : A) (r : tree).
Fixpoint inorder (t : tree) : list A :=
  match t with Leaf => [] | Node l x r => inorder l ++ x :: inorder r end.
Fixpoint preorder (t : tree) : list A :=
  match t with Leaf => [] | Node l x r => x :: preorder l ++ preorder r end.

(** [o] holds tree [t] at [i], in an array of [n]. *)
Fixpoint holds (o : array A) (n i : N) (t : tree) : Prop :=
  match t with
  | Leaf => n <= i
  | Node l x r => i < n /\ o i = Some x /\ holds o n (i * 2 + 1) l /\ holds o n (i * 2 + 2) r
  end.

Definition desc (i j : N) : Prop := exists d, (j + 1) / 2 ^ d = i + 1.

Lemma desc_refl i : desc i i.
Proof. exists 0. rewrite N.pow_0_r. apply N.div_1_r. Qed.

Lemma pow2_pos d : 0 < 2 ^ d.
Proof. apply N.neq_0_lt_0, N.pow_nonzero. lia. Qed.

Lemma desc_trans i k j : desc i k -> desc k j -> desc i j.
Proof. intros [d Hd] [d' Hd']. exists (d' + d). rewrite N.pow_add_r, <- N.div_div by (apply N.pow_nonzero; lia).
  rewrite Hd'. exact Hd. Qed.

Lemma desc_left i : desc i (i * 2 + 1).
Proof. exists 1. change (2 ^ 1) with 2. lia. Qed.
Lemma desc_right i : desc i (i * 2 + 2).
Proof. exists 1. change (2 ^ 1) with 2. lia. Qed.

Lemma desc_le i j : desc i j -> i <= j.
Proof. intros [d Hd]. pose proof (pow2_pos d). assert ((j + 1) / 2 ^ d <= j + 1) by (apply N.div_le_upper_bound; nia). lia. Qed.

Lemma desc_disjoint i j : desc (i * 2 + 1) j -> desc (i * 2 + 2) j -> False.
Proof.
  intros [d Hd] [d' Hd'].
  destruct (N.lt_trichotomy d d') as [H|[H|H]].
  - replace d' with (d + (d' - d)) in Hd' by lia. rewrite N.pow_add_r, <- N.div_div in Hd' by (apply N.pow_nonzero; lia).
    rewrite Hd in Hd'. pose proof (pow2_pos (d' - d)).
    assert ((i * 2 + 1 + 1) / 2 ^ (d' - d) <= i * 2 + 1 + 1) by (apply N.div_le_upper_bound; nia). lia.
  - subst. lia.
  - replace d with (d' + 1 + (d - d' - 1)) in Hd by lia. rewrite !N.pow_add_r, <- !N.div_div in Hd by (try apply N.neq_mul_0; repeat split; apply N.pow_nonzero; lia).
    rewrite Hd' in Hd. change (2 ^ 1) with 2 in Hd.
    assert (Hh : (i * 2 + 2 + 1) / 2 = i + 1) by lia. rewrite Hh in Hd.
    pose proof (pow2_pos (d - d' - 1)).
    assert ((i + 1) / 2 ^ (d - d' - 1) <= i + 1) by (apply N.div_le_upper_bound; nia). lia.
Qed.

(** Subtree arithmetic: subtree at [i] of height [e] has [n] elements in an array of [M]. *)
Definition sub_ok (M i e n : N) : Prop :=
  M <= (i + 1) * 2 ^ e - 1 /\
  (2 <= e -> (i + 2) * 2 ^ (e - 2) - 1 <= M) /\
  (1 <= e -> n = 2 ^ (e - 1) - 1 + N.min (M - ((i + 1) * 2 ^ (e - 1) - 1)) (2 ^ (e - 1))) /\
  (e = 0 -> n = 0).

Lemma pow2_half e : 1 <= e -> 2 ^ e = 2 * 2 ^ (e - 1).
Proof. intros H. replace e with (N.succ (e - 1)) at 1 by lia. apply N.pow_succ_r'. Qed.

Definition split_k (n e : N) : N :=
  let p := 2 ^ (e - 1) in
  let q := 2 ^ e in
  if p - 1 + p / 2 <=? n then (q - 2) / 2 else let v := p - 1 + p / 2 - n in (q - 2) / 2 - v.

Lemma sub_ok_step M i e n : sub_ok M i e n -> n <> 0 ->
  1 <= e /\ i < M /\ split_k n e < n /\
  sub_ok M (i * 2 + 1) (e - 1) (split_k n e) /\ sub_ok M (i * 2 + 2) (e - 1) (n - split_k n e - 1).
Proof.
  intros (HM & H2 & H1 & H0) Hn.
  assert (He : 1 <= e) by (destruct (N.eq_dec e 0); [specialize (H0 e0); contradiction|lia]).
  specialize (H1 He). unfold split_k. cbv zeta.
  pose proof (pow2_pos (e - 1)) as Hp. pose proof (pow2_half e He) as Hq.
  destruct (N.eq_dec e 1) as [->|He1].
  - change (2 ^ (1 - 1)) with 1 in *. change (2 ^ 1) with 2 in *. change (1 / 2) with 0. change (1 - 1) with 0 in *.
    assert (Hn1 : n = 1) by lia. assert (Hi : i < M) by lia. clear H0 H1 H2 Hn. subst n. destruct (N.leb_spec (0 + 0) 1); [|lia].
    change ((2 - 2) / 2) with 0. split; [lia|]. split; [lia|]. split; [lia|].
    unfold sub_ok. change (2 ^ 0) with 1. split; (split; [lia|split; [lia|split; [lia|lia]]]).
  - specialize (H2 ltac:(lia)).
    pose proof (pow2_half (e - 1) ltac:(lia)) as Hh. replace (e - 1 - 1) with (e - 2) in * by lia.
    pose proof (pow2_pos (e - 2)) as Hr.
    set (r := 2 ^ (e - 2)) in *. set (p := 2 ^ (e - 1)) in *.
    rewrite Hh in *. rewrite Hq in *. clear Hq Hh.
    assert (Hp2 : 2 * r / 2 = r) by lia. rewrite Hp2.
    assert (Hk : (2 * (2 * r) - 2) / 2 = 2 * r - 1) by lia. rewrite Hk.
    clearbody p. clear p Hp Hp2 Hk.
    assert (E1 : e - 1 - 1 = e - 2) by (clear -He He1; lia). assert (E2 : e - 1 - 2 = e - 3) by (clear -He He1; lia).
    assert (E3 : 1 <= e - 1) by (clear -He He1; lia).
    set (s := i * r) in *.
    assert (Hsi : i <= s) by (unfold s; clear -Hr; nia).
    replace ((i + 1) * (2 * (2 * r))) with (4 * s + 4 * r) in * by (unfold s; ring).
    replace ((i + 1) * (2 * r)) with (2 * s + 2 * r) in * by (unfold s; ring).
    replace ((i + 2) * r) with (s + 2 * r) in * by (unfold s; ring).
    assert (Hlt : i < M) by lia.
    split; [lia|]. split; [exact Hlt|].
    assert (Hbig : forall j, 3 <= e -> j <= i * 2 + 2 -> (j + 2) * 2 ^ (e - 3) - 1 <= M).
    { intros j He3 Hj. assert (Hr3 : r = 2 * 2 ^ (e - 3)) by (unfold r; rewrite (pow2_half (e - 2)) by lia; do 2 f_equal; lia).
      assert (Hm : (j + 2) * 2 ^ (e - 3) <= (i * 2 + 4) * 2 ^ (e - 3)) by (apply N.mul_le_mono_r; lia).
      replace ((i * 2 + 4) * 2 ^ (e - 3)) with (s + 2 * r) in Hm by (unfold s; rewrite Hr3; ring). lia. }
    assert (HL : forall k, k = r - 1 + N.min (M - (2 * s + 2 * r - 1)) r -> sub_ok M (i * 2 + 1) (e - 1) k).
    { intros k Hkk. unfold sub_ok. rewrite (pow2_half (e - 1)) by exact E3. rewrite E1, E2. fold r.
      replace ((i * 2 + 1 + 1) * (2 * r)) with (4 * s + 4 * r) by (unfold s; ring).
      replace ((i * 2 + 1 + 1) * r) with (2 * s + 2 * r) by (unfold s; ring).
      split; [clear -HM; lia|]. split; [intros; apply Hbig; clear -H; lia|]. split; [intros _; exact Hkk|clear -E3; lia]. }
    assert (HR : forall k, k = r - 1 + N.min (M - (2 * s + 3 * r - 1)) r -> sub_ok M (i * 2 + 2) (e - 1) k).
    { intros k Hkk. unfold sub_ok. rewrite (pow2_half (e - 1)) by exact E3. rewrite E1, E2. fold r.
      replace ((i * 2 + 2 + 1) * (2 * r)) with (4 * s + 6 * r) by (unfold s; ring).
      replace ((i * 2 + 2 + 1) * r) with (2 * s + 3 * r) by (unfold s; ring).
      split; [clear -HM; lia|]. split; [intros; apply Hbig; clear -H; lia|]. split; [intros _; exact Hkk|clear -E3; lia]. }
    clearbody s r. clear Hbig H0 HM H2 Hlt Hsi E1 E2 E3.
    assert (HD : M - (2 * s + 3 * r - 1) = M - (2 * s + 2 * r - 1) - r) by (clear; lia).
    rewrite HD in HR. clear HD. set (D := M - (2 * s + 2 * r - 1)) in *. clearbody D.
    destruct (N.leb_spec (2 * r - 1 + r) n) as [Hc|Hc].
    + split; [clear -H1 Hc Hr; lia|]. split; [apply HL; clear -H1 Hc Hr; lia|apply HR; clear -H1 Hc Hr; lia].
    + split; [clear -H1 Hc Hr; lia|]. split; [apply HL; clear -H1 Hc Hr; lia|apply HR; clear -H1 Hc Hr; lia].
Qed.

Lemma sub_ok_zero M i e : sub_ok M i e 0 -> M <= i.
Proof.
  intros (HM & H2 & H1 & H0). destruct (N.eq_dec e 0) as [->|He].
  - change (2 ^ 0) with 1 in HM. lia.
  - specialize (H1 ltac:(lia)). pose proof (pow2_pos (e - 1)).
    destruct (N.eq_dec e 1) as [->|He1].
    + change (2 ^ (1 - 1)) with 1 in *. lia.
    + pose proof (pow2_half (e - 1) ltac:(lia)). pose proof (pow2_pos (e - 1 - 1)). lia.
Qed.

Lemma holds_ext o o' n i t : (forall j, desc i j -> o j = o' j) -> holds o n i t -> holds o' n i t.
Proof.
  revert i; induction t as [|l IHl x r IHr]; intros i He; cbn [holds]; [auto|].
  intros (Hi & Ho & Hl & Hr). split; [exact Hi|]. split; [rewrite <- He; [exact Ho|apply desc_refl]|].
  split.
  - apply IHl; [|exact Hl]. intros j Hj. apply He. eapply desc_trans; [apply desc_left|exact Hj].
  - apply IHr; [|exact Hr]. intros j Hj. apply He. eapply desc_trans; [apply desc_right|exact Hj].
Qed.

Lemma make_bst_inner_ok fuel : forall (input : list A) n e o i M,
  (N.to_nat e <= fuel)%nat -> sub_ok M i e n -> (N.to_nat n <= length input)%nat ->
  exists o' t, make_bst_inner fuel input n e o i = Ok o' /\
    holds o' M i t /\ inorder t = firstn (N.to_nat n) input /\
    (forall j, ~ desc i j -> o' j = o j) /\
    (forall j, M <= j -> o' j = o j).
Proof.
  induction fuel as [|fuel IH]; intros input n e o i M Hfuel Hs Hlen.
  - assert (e = 0) by lia. subst e. assert (Hn : n = 0) by (apply Hs; reflexivity). subst n.
    exists o, Leaf. cbn [make_bst_inner]. split; [reflexivity|]. split; [apply (sub_ok_zero _ _ _ Hs)|].
    split; [reflexivity|]. split; reflexivity.
  - cbn [make_bst_inner]. destruct (N.eqb_spec n 0) as [->|Hn].
    + exists o, Leaf. split; [reflexivity|]. split; [apply (sub_ok_zero _ _ _ Hs)|].
      split; [reflexivity|]. split; reflexivity.
    + destruct (sub_ok_step _ _ _ _ Hs Hn) as (He & Hi & Hk & Hl & Hr).
      destruct (N.eqb_spec e 0); [lia|]. cbv zeta. fold (split_k n e). 
      change (if 2 ^ (e - 1) - 1 + 2 ^ (e - 1) / 2 <=? n then (2 ^ e - 2) / 2
              else (2 ^ e - 2) / 2 - (2 ^ (e - 1) - 1 + 2 ^ (e - 1) / 2 - n)) with (split_k n e).
      set (k := split_k n e) in *.
      destruct (nth_error input (N.to_nat k)) as [x|] eqn:Hx.
      2:{ apply nth_error_None in Hx. lia. }
      destruct (IH input k (e - 1) (upd o i x) (i * 2 + 1) M ltac:(lia) Hl ltac:(lia))
        as (o1 & tl & E1 & H1 & I1 & F1 & G1).
      rewrite E1. cbn [bind].
      destruct (IH (skipn (N.to_nat (k + 1)) input) (n - k - 1) (e - 1) o1 (i * 2 + 2) M ltac:(lia) Hr)
        as (o2 & tr & E2 & H2 & I2 & F2 & G2).
      { rewrite skipn_length. lia. }
      exists o2, (Node tl x tr). split; [exact E2|]. split; [|split; [|split]].
      * cbn [holds]. split; [exact Hi|].
        assert (Hni1 : ~ desc (i * 2 + 1) i) by (intros Hd; apply desc_le in Hd; lia).
        assert (Hni2 : ~ desc (i * 2 + 2) i) by (intros Hd; apply desc_le in Hd; lia).
        split; [rewrite F2, F1 by assumption; unfold upd; rewrite N.eqb_refl; reflexivity|].
        split; [|exact H2]. apply (holds_ext o1); [|exact H1].
        intros j Hj. symmetry. apply F2. intros Hd. eapply desc_disjoint; eassumption.
      * cbn [inorder]. rewrite I1, I2.
        replace (N.to_nat n) with (N.to_nat k + S (N.to_nat (n - k - 1)))%nat by lia.
        replace (N.to_nat (k + 1)) with (S (N.to_nat k)) by lia.
        clear -Hx. revert input Hx. generalize (N.to_nat k). intros m.
        induction m as [|m IHm]; intros [|y input] Hx; cbn in Hx; try discriminate.
        -- injection Hx as ->. reflexivity.
        -- cbn [firstn app Nat.add]. f_equal. apply IHm, Hx.
      * intros j Hj. rewrite F2, F1.
        -- unfold upd. destruct (N.eqb_spec j i) as [->|]; [exfalso; apply Hj, desc_refl|reflexivity].
        -- intros Hd. apply Hj. eapply desc_trans; [apply desc_left|exact Hd].
        -- intros Hd. apply Hj. eapply desc_trans; [apply desc_right|exact Hd].
      * intros j Hj. rewrite G2, G1 by exact Hj. unfold upd. destruct (N.eqb_spec j i); [lia|reflexivity].
Qed.

Lemma sub_ok_root n : n <> 0 -> sub_ok n 0 (N.log2 n + 1) n.
Proof.
  intros Hn. pose proof (N.log2_spec n ltac:(lia)) as [H1 H2].
  rewrite <- N.add_1_r in H2. unfold sub_ok. replace (N.log2 n + 1 - 1) with (N.log2 n) by lia.
  rewrite N.add_0_l, !N.mul_1_l.
  assert (Hp : 2 ^ (N.log2 n + 1) = 2 * 2 ^ N.log2 n) by (rewrite N.add_1_r; apply N.pow_succ_r').
  pose proof (pow2_pos (N.log2 n)).
  split; [lia|]. split; [|split; [intros _; lia|lia]].
  intros He. replace (N.log2 n + 1 - 2) with (N.log2 n - 1) by lia.
  pose proof (pow2_half (N.log2 n) ltac:(lia)). lia.
Qed.

Lemma ca_make_bst_ok (input : list A) o : input <> [] ->
  exists o' t, ca_make_bst input o = Ok o' /\ holds o' (len input) 0 t /\ inorder t = input /\
    (forall j, len input <= j -> o' j = o j).
Proof.
  intros Hne. unfold ca_make_bst. cbv zeta.
  assert (Hn : len input <> 0) by (destruct input; [congruence|rewrite len_cons; lia]).
  destruct (N.eqb_spec (len input) 0); [contradiction|].
  destruct (make_bst_inner_ok (S (N.to_nat (N.log2 (len input) + 1))) input (len input)
     (N.log2 (len input) + 1) o 0 (len input)) as (o' & t & E & H & I & _ & G).
  - lia.
  - apply sub_ok_root, Hn.
  - unfold len. lia.
  - exists o', t. repeat split; auto. rewrite I. apply firstn_all2. unfold len. lia.
Qed.

(** All indices below n are in the tree. *)
Lemma desc_child i j : desc i j -> j <> i -> desc (i * 2 + 1) j \/ desc (i * 2 + 2) j.
Proof.
  intros [d Hd] Hne. destruct (N.eq_dec d 0) as [->|H0].
  - rewrite N.pow_0_r, N.div_1_r in Hd. lia.
  - assert (Hd2 : ((j + 1) / 2 ^ (d - 1)) / 2 = i + 1).
    { rewrite N.div_div by (try apply N.pow_nonzero; lia). rewrite (N.mul_comm _ 2), <- pow2_half by lia. exact Hd. }
    assert (Hc : (j + 1) / 2 ^ (d - 1) = i * 2 + 1 + 1 \/ (j + 1) / 2 ^ (d - 1) = i * 2 + 2 + 1) by lia.
    destruct Hc as [Hc|Hc]; [left|right]; exists (d - 1); exact Hc.
Qed.

Lemma desc_root j : desc 0 j.
Proof.
  exists (N.log2 (j + 1)). pose proof (N.log2_spec (j + 1) ltac:(lia)) as [H1 H2].
  rewrite N.pow_succ_r' in H2. pose proof (pow2_pos (N.log2 (j + 1))).
  symmetry. apply (N.div_unique _ _ 1 (j + 1 - 2 ^ N.log2 (j + 1))); lia.
Qed.

(** Positions of the tree's nodes, with contents, in preorder. *)
Fixpoint nodes (i : N) (t : tree) : list (N * A) :=
  match t with Leaf => [] | Node l x r => (i, x) :: nodes (i * 2 + 1) l ++ nodes (i * 2 + 2) r end.

Lemma nodes_desc i t j x : In (j, x) (nodes i t) -> desc i j.
Proof.
  revert i; induction t as [|l IHl y r IHr]; intros i; cbn [nodes]; [intros []|].
  intros [H|H]; [injection H as -> _; apply desc_refl|]. apply in_app_or in H as [H|H].
  - eapply desc_trans; [apply desc_left|apply IHl, H].
  - eapply desc_trans; [apply desc_right|apply IHr, H].
Qed.

Lemma NoDup_app_intro {B} (a b : list B) : NoDup a -> NoDup b -> (forall x, In x a -> ~ In x b) -> NoDup (a ++ b).
Proof.
  induction a as [|x a IH]; intros Ha Hb Hd; cbn [app]; [exact Hb|].
  inversion Ha as [|? ? Hx Ha']; subst. constructor.
  - rewrite in_app_iff. intros [H|H]; [contradiction|]. apply (Hd x); [left; reflexivity|exact H].
  - apply IH; auto. intros y Hy. apply Hd. right. exact Hy.
Qed.

Lemma nodes_nodup i t : NoDup (map fst (nodes i t)).
Proof.
  revert i; induction t as [|l IHl y r IHr]; intros i; cbn [nodes map]; [constructor|].
  constructor.
  - rewrite map_app, in_app_iff. intros [H|H]; apply in_map_iff in H as ([j z] & E & H); cbn [fst] in E; subst j;
    apply nodes_desc, desc_le in H; lia.
  - rewrite map_app. apply NoDup_app_intro; [apply IHl|apply IHr|].
    intros a H1 H2. apply in_map_iff in H1 as ([j z] & E1 & H1). apply in_map_iff in H2 as ([j' z'] & E & H2).
    cbn [fst] in E, E1. subst j j'. eapply desc_disjoint; [eapply nodes_desc, H1|eapply nodes_desc, H2].
Qed.

Lemma nodes_holds o n t : forall i, holds o n i t -> forall j x, In (j, x) (nodes i t) -> j < n /\ o j = Some x.
Proof.
  induction t as [|l IHl y r IHr]; intros i; cbn [holds nodes]; [intros _ j x []|].
  intros (Hi & Ho & Hl & Hr) j x [H|H]; [injection H as <- <-; auto|].
  apply in_app_or in H as [H|H]; [eapply IHl|eapply IHr]; eassumption.
Qed.

Lemma nodes_all o n t : forall i, holds o n i t -> forall j, desc i j -> j < n -> In j (map fst (nodes i t)).
Proof.
  induction t as [|l IHl y r IHr]; intros i; cbn [holds nodes map].
  - intros Hn j Hd Hj. apply desc_le in Hd. lia.
  - intros (Hi & Ho & Hl & Hr) j Hd Hj. destruct (N.eq_dec j i) as [->|Hne]; [left; reflexivity|].
    right. rewrite map_app, in_app_iff. destruct (desc_child _ _ Hd Hne) as [H|H]; [left|right]; eauto.
Qed.

Lemma nodes_preorder i t : map snd (nodes i t) = preorder t.
Proof. revert i; induction t as [|l IHl y r IHr]; intros i; cbn [nodes map preorder]; [reflexivity|].
  rewrite map_app, IHl, IHr. reflexivity. Qed.

Lemma preorder_inorder t : Permutation (preorder t) (inorder t).
Proof. induction t as [|l IHl y r IHr]; cbn [preorder inorder]; [constructor|].
  rewrite IHl, IHr. apply Permutation_middle. Qed.

Definition range (n : nat) : list N := map N.of_nat (seq 0 n).

Lemma array_list_spec (o : array A) k : forall i, (forall j, i <= j < i + N.of_nat k -> exists x, o j = Some x) ->
  exists l, array_list o i k = Some l /\ length l = k /\
    forall j, (j < k)%nat -> o (i + N.of_nat j) = nth_error l j.
Proof.
  induction k as [|k IH]; intros i H.
  - exists []. split; [reflexivity|]. split; [reflexivity|]. intros; lia.
  - destruct (H i ltac:(lia)) as [x Hx].
    destruct (IH (i + 1)) as (l & E & Hl & Hn); [intros j Hj; apply H; lia|].
    exists (x :: l). cbn [array_list]. rewrite Hx, E. split; [reflexivity|]. split; [cbn; lia|].
    intros [|j] Hj; cbn [nth_error].
    + replace (i + N.of_nat 0) with i by lia. exact Hx.
    + rewrite <- Hn by lia. f_equal. lia.
Qed.

Lemma map_Some_inj {B} (a b : list B) : map Some a = map Some b -> a = b.
Proof. revert b; induction a as [|x a IH]; intros [|y b] H; cbn [map] in H; try discriminate H; [reflexivity|].
  injection H as -> H. f_equal. apply IH, H. Qed.

Lemma holds_list o t n : holds o (N.of_nat n) 0 t ->
  exists l, array_list o 0 n = Some l /\ Permutation l (inorder t) /\ length l = n /\
    forall j, (j < n)%nat -> o (N.of_nat j) = nth_error l j.
Proof.
  intros H.
  assert (Hsome : forall j, j < N.of_nat n -> exists x, In (j, x) (nodes 0 t) /\ o j = Some x).
  { intros j Hj. pose proof (nodes_all _ _ _ _ H j (desc_root j) Hj) as Hin.
    apply in_map_iff in Hin as ([j' x] & E & Hin). cbn [fst] in E. subst j'. exists x. split; [exact Hin|].
    eapply nodes_holds; eassumption. }
  destruct (array_list_spec o n 0) as (l & E & Hl & Hn).
  { intros j Hj. destruct (Hsome j ltac:(lia)) as (x & _ & Hx). eauto. }
  exists l. split; [exact E|]. split; [|split; [exact Hl|intros j Hj; rewrite <- Hn by exact Hj; f_equal; lia]].
  transitivity (preorder t); [|apply preorder_inorder]. rewrite <- (nodes_preorder 0 t).
  (* l as map of o over the indices *)
  assert (HP : Permutation (map fst (nodes 0 t)) (range n)).
  { apply NoDup_Permutation; [apply nodes_nodup| |].
    - unfold range. apply FinFun.Injective_map_NoDup; [intros a b Hab; lia|apply seq_NoDup].
    - intros j. unfold range. rewrite (in_map_iff N.of_nat). split.
      + intros Hj. apply in_map_iff in Hj as ([j' x] & E' & Hj). cbn [fst] in E'. subst j'.
        destruct (nodes_holds _ _ _ _ H _ _ Hj) as [Hj' _]. exists (N.to_nat j). split; [lia|]. apply in_seq. lia.
      + intros (k & <- & Hk). apply in_seq in Hk. apply (nodes_all _ _ _ _ H); [apply desc_root|lia]. }
  assert (H1 : map Some l = map o (range n)).
  { unfold range. rewrite map_map. clear -Hl Hn.
    assert (Hn' : forall j, (j < n)%nat -> nth_error l j = o (N.of_nat j)).
    { intros j Hj. rewrite <- Hn by exact Hj. f_equal. }
    clear Hn. rewrite <- Hl in *. clear Hl n. revert o Hn'. induction l as [|x l IH]; intros o Hn; [reflexivity|].
    cbn [length seq map]. f_equal; [apply (Hn 0%nat); cbn; lia|].
    rewrite <- seq_shift, map_map. rewrite (IH (fun j => o (j + 1))).
    - apply map_ext. intros k. f_equal. lia.
    - intros j Hj. specialize (Hn (S j) ltac:(cbn; lia)). cbn in Hn. rewrite Hn. f_equal. lia. }
  assert (H2 : map Some (map snd (nodes 0 t)) = map o (map fst (nodes 0 t))).
  { rewrite !map_map. apply map_ext_in. intros [j x] Hin. cbn. symmetry. eapply nodes_holds; eassumption. }
  assert (HP2 : Permutation (map Some l) (map Some (map snd (nodes 0 t)))).
  { rewrite H1, H2. apply Permutation_map. symmetry. exact HP. }
  apply Permutation_map_inv in HP2 as (l3 & E3 & HP3).
  apply map_Some_inj in E3. subst l3. symmetry. exact HP3.
Qed.

(** ** Searching *)
Variable hash : A -> N.
Definition matches (h : N) (l : list A) : list A := filter (fun x => hash x =? h) l.

Fixpoint depth (t : tree) : nat := match t with Leaf => 0 | Node l _ r => S (Nat.max (depth l) (depth r)) end.

(** Tree ordered by hash (non strictly). *)
Fixpoint ordered (t : tree) : Prop :=
  match t with
  | Leaf => True
  | Node l x r => ordered l /\ ordered r /\ Forall (fun y => hash y <= hash x) (inorder l) /\ Forall (fun y => hash x <= hash y) (inorder r)
  end.

Lemma ordered_inorder t : StronglySorted (fun a b => hash a <= hash b) (inorder t) -> ordered t.
Proof.
  induction t as [|l IHl x r IHr]; cbn [inorder ordered]; [trivial|]. intros H.
  assert (Hl : StronglySorted (fun a b => hash a <= hash b) (inorder l) /\ StronglySorted (fun a b => hash a <= hash b) (x :: inorder r) /\
     forall a b, In a (inorder l) -> In b (x :: inorder r) -> hash a <= hash b).
  { revert H. generalize (x :: inorder r). generalize (inorder l). clear. intros a b. induction a as [|y a IH]; cbn [app]; intros H.
    - split; [constructor|]. split; [exact H|]. intros ? ? [].
    - inversion H as [|? ? Hs Hf]; subst. destruct (IH Hs) as (H1 & H2 & H3). rewrite Forall_app in Hf. destruct Hf as [Hf1 Hf2].
      split; [constructor; assumption|]. split; [exact H2|]. intros p q [<-|Hp] Hq; [rewrite Forall_forall in Hf2; apply Hf2, Hq|apply H3; assumption]. }
  destruct Hl as (H1 & H2 & H3). inversion H2 as [|? ? Hs Hf]; subst.
  split; [apply IHl, H1|]. split; [apply IHr, Hs|]. split; [|exact Hf].
  apply Forall_forall. intros y Hy. apply H3; [exact Hy|left; reflexivity].
Qed.

Lemma matches_app h a b : matches h (a ++ b) = matches h a ++ matches h b.
Proof. apply filter_app. Qed.

Lemma matches_nil h l : Forall (fun y => hash y <> h) l -> matches h l = [].
Proof. induction 1 as [|y l Hy _ IH]; cbn [matches filter]; [reflexivity|]. destruct (N.eqb_spec (hash y) h); [contradiction|exact IH]. Qed.

Lemma preorder_forall (P : A -> Prop) t : Forall P (inorder t) -> Forall P (preorder t).
Proof. intros H. eapply Permutation_Forall; [symmetry; apply preorder_inorder|exact H]. Qed.

(** Table (a list) holds a tree. *)
Fixpoint lholds (tb : list A) (i : N) (t : tree) : Prop :=
  match t with
  | Leaf => len tb <= i
  | Node l x r => nth_error tb (N.to_nat i) = Some x /\ lholds tb (2 * i + 1) l /\ lholds tb (2 * i + 2) r
  end.

Lemma search_inner_ok tb h t : forall fuel i idx, (depth t <= fuel)%nat -> lholds tb i t -> ordered t ->
  search_inner hash fuel tb h i idx =
  Ok (nth_error (matches h (preorder t)) (N.to_nat idx),
      match nth_error (matches h (preorder t)) (N.to_nat idx) with Some _ => 0 | None => idx - len (matches h (preorder t)) end).
Proof.
  induction t as [|l IHl x r IHr]; intros fuel i idx Hd Hh Ho.
  - cbn [lholds] in Hh. assert (Hn : nth_error tb (N.to_nat i) = None) by (apply nth_error_None; unfold len in Hh; lia).
    cbn [preorder matches filter]. assert (Hz : nth_error (@nil A) (N.to_nat idx) = None) by (destruct (N.to_nat idx); reflexivity).
    rewrite Hz, len_nil, N.sub_0_r. destruct fuel; cbn [search_inner]; rewrite Hn; reflexivity.
  - cbn [lholds ordered depth] in *. destruct Hh as (Hx & Hl & Hr). destruct Ho as (Hol & Hor & Hfl & Hfr).
    destruct fuel as [|fuel]; [lia|]. cbn [search_inner]. rewrite Hx. cbv zeta.
    cbn [preorder]. apply preorder_forall in Hfl, Hfr.
    change (matches h (x :: preorder l ++ preorder r)) with
      (if hash x =? h then x :: matches h (preorder l ++ preorder r) else matches h (preorder l ++ preorder r)).
    rewrite matches_app.
    assert (HL : forall idx', (if h <=? hash x then search_inner hash fuel tb h (2 * i + 1) idx' else Ok (None, idx')) =
        Ok (nth_error (matches h (preorder l)) (N.to_nat idx'),
      match nth_error (matches h (preorder l)) (N.to_nat idx') with Some _ => 0 | None => idx' - len (matches h (preorder l)) end)).
    { intros idx'. destruct (N.leb_spec h (hash x)); [apply IHl; auto; lia|].
      rewrite (matches_nil h (preorder l)).
      - destruct (N.to_nat idx'); cbn [nth_error]; rewrite len_nil, N.sub_0_r; reflexivity.
      - eapply Forall_impl; [|exact Hfl]. cbn. intros; lia. }
    assert (HR : forall idx', (if hash x <=? h then search_inner hash fuel tb h (2 * i + 2) idx' else Ok (None, idx')) =
        Ok (nth_error (matches h (preorder r)) (N.to_nat idx'),
      match nth_error (matches h (preorder r)) (N.to_nat idx') with Some _ => 0 | None => idx' - len (matches h (preorder r)) end)).
    { intros idx'. destruct (N.leb_spec (hash x) h); [apply IHr; auto; lia|].
      rewrite (matches_nil h (preorder r)).
      - destruct (N.to_nat idx'); cbn [nth_error]; rewrite len_nil, N.sub_0_r; reflexivity.
      - eapply Forall_impl; [|exact Hfr]. cbn. intros; lia. }
    assert (HLR : forall idx',
      (let! (f, idx) := (if h <=? hash x then search_inner hash fuel tb h (2 * i + 1) idx' else Ok (None, idx')) in
        match f with
        | Some y => Ok (Some y, idx)
        | None => if hash x <=? h then search_inner hash fuel tb h (2 * i + 2) idx else Ok (None, idx)
        end) =
      Ok (nth_error (matches h (preorder l) ++ matches h (preorder r)) (N.to_nat idx'),
       match nth_error (matches h (preorder l) ++ matches h (preorder r)) (N.to_nat idx') with
       | Some _ => 0 | None => idx' - len (matches h (preorder l) ++ matches h (preorder r)) end)).
    { intros idx'. rewrite HL. cbn [bind].
      destruct (nth_error (matches h (preorder l)) (N.to_nat idx')) as [y|] eqn:E.
      - rewrite nth_error_app1; [rewrite E; reflexivity|]. apply nth_error_Some. congruence.
      - apply nth_error_None in E. rewrite HR. rewrite nth_error_app2 by exact E.
        replace (N.to_nat idx' - length (matches h (preorder l)))%nat with (N.to_nat (idx' - len (matches h (preorder l)))) by (unfold len; lia).
        rewrite len_app. destruct (nth_error (matches h (preorder r)) _); [reflexivity|].
        f_equal. f_equal. lia. }
    destruct (N.eqb_spec (hash x) h) as [Heq|Hne]; cbn [andb].
    + destruct (N.eqb_spec idx 0) as [->|Hi0].
      * reflexivity.
      * rewrite HLR. replace (N.to_nat idx) with (S (N.to_nat (idx - 1))) by lia. cbn [nth_error].
        rewrite len_cons. destruct (nth_error (matches h (preorder l) ++ matches h (preorder r)) (N.to_nat (idx - 1))); [reflexivity|].
        f_equal. f_equal. lia.
    + apply HLR.
Qed.

(** Depth of a tree held by a table. *)
Lemma lholds_depth tb t : forall i, lholds tb i t -> (depth t > 0)%nat -> (i + 1) * 2 ^ N.of_nat (depth t - 1) <= len tb.
Proof.
  induction t as [|l IHl x r IHr]; intros i; cbn [lholds depth]; [lia|].
  intros (Hx & Hl & Hr) _. 
  assert (Hi : i < len tb).
  { assert (N.to_nat i < length tb)%nat by (apply nth_error_Some; congruence). unfold len. lia. }
  replace (S (Nat.max (depth l) (depth r)) - 1)%nat with (Nat.max (depth l) (depth r)) by lia.
  destruct (Nat.eq_dec (Nat.max (depth l) (depth r)) 0) as [H0|H0].
  - rewrite H0. change (2 ^ N.of_nat 0) with 1. lia.
  - assert (Hp : forall d, (d > 0)%nat -> 2 ^ N.of_nat d = 2 * 2 ^ N.of_nat (d - 1)).
    { intros d Hd. rewrite (pow2_half (N.of_nat d)) by lia. do 2 f_equal. lia. }
    rewrite Hp by lia. pose proof (pow2_pos (N.of_nat (Nat.max (depth l) (depth r) - 1))).
    destruct (Nat.max_spec (depth l) (depth r)) as [[_ E]|[_ E]]; rewrite E in *.
    + specialize (IHr _ Hr ltac:(lia)). nia.
    + specialize (IHl _ Hl ltac:(lia)). nia.
Qed.

Lemma holds_lholds o l t : (forall j, (j < length l)%nat -> o (N.of_nat j) = nth_error l j) ->
  forall i, holds o (len l) i t -> lholds l i t.
Proof.
  intros Ho. induction t as [|tl IHl x r IHr]; intros i; cbn [holds lholds]; [auto|].
  intros (Hi & Hx & Hl & Hr). split.
  - rewrite <- Ho by (unfold len in Hi; lia). rewrite N2Nat.id. exact Hx.
  - rewrite !(N.mul_comm 2). split; auto.
Qed.

Lemma goodbye_search_ok tb t h idx : lholds tb 0 t -> ordered t ->
  goodbye_search hash tb h idx = Ok (nth_error (matches h (preorder t)) (N.to_nat idx)).
Proof.
  intros Hh Ho. unfold goodbye_search. rewrite (search_inner_ok tb h t); auto.
  destruct (Nat.eq_dec (depth t) 0) as [H0|H0]; [lia|].
  pose proof (lholds_depth tb t 0 Hh ltac:(lia)) as H. rewrite N.add_0_l, N.mul_1_l in H.
  assert (Hle : N.of_nat (depth t - 1) <= N.log2 (len tb + 1)) by (apply N.log2_le_pow2; lia). lia.
Qed.

End P.

(** ** Name tables *)
Lemma name_item_sorted l : StronglySorted (fun a b => name_item_le a b = true) l ->
  StronglySorted (fun a b => ni_hash a <= ni_hash b) l.
Proof.
  induction 1 as [|x l Hs IH Hf]; constructor; [exact IH|].
  eapply Forall_impl; [|exact Hf]. cbv beta. intros y Hy. unfold name_item_le in Hy. lia.
Qed.

Lemma filter_perm {A} (f : A -> bool) a b : Permutation a b -> Permutation (filter f a) (filter f b).
Proof.
  induction 1 as [|x a b H IH|x y a|a b c H1 IH1 H2 IH2]; cbn [filter].
  - constructor.
  - destruct (f x); [constructor|]; exact IH.
  - destruct (f x), (f y); try apply Permutation_refl; apply perm_swap.
  - etransitivity; eassumption.
Qed.

Lemma make_bst_lookup {A} (hash : A -> N) (input : list A) o : input <> [] ->
  StronglySorted (fun a b => hash a <= hash b) input ->
  exists o' l, ca_make_bst input o = Ok o' /\ array_list o' 0 (length input) = Some l /\ Permutation l input /\
    (forall j, len input <= j -> o' j = o j) /\
    forall h, exists ms, Permutation ms (filter (fun x => hash x =? h) input) /\
      forall idx, goodbye_search hash l h idx = Ok (nth_error ms (N.to_nat idx)).
Proof.
  intros Hne Hs. destruct (ca_make_bst_ok input o Hne) as (o' & t & E & Hh & Hi & Ho).
  destruct (holds_list o' t (length input) Hh) as (l & El & Hp & Hlen & Hn).
  exists o', l. rewrite Hi in Hp. split; [exact E|]. split; [exact El|]. split; [exact Hp|]. split; [exact Ho|].
  intros h. exists (matches hash h (preorder t)). split.
  - unfold matches. apply filter_perm. rewrite <- Hi. apply preorder_inorder.
  - intros idx. apply goodbye_search_ok.
    + eapply holds_lholds; [exact hash|intros j Hj; apply Hn; lia|]. unfold len in *. rewrite Hlen. exact Hh.
    + apply ordered_inorder. rewrite Hi. exact Hs.
Qed.

Lemma single_lookup {A} (hash : A -> N) (l : list A) h idx : (length l <= 1)%nat ->
  goodbye_search hash l h idx = Ok (nth_error (filter (fun x => hash x =? h) l) (N.to_nat idx)).
Proof.
  intros Hl.
  rewrite (goodbye_search_ok hash l (match l with [] => Leaf | x :: _ => Node Leaf x Leaf end)).
  - destruct l as [|x [|y l]]; cbn in *; [reflexivity|reflexivity|lia].
  - destruct l as [|x [|y l]]; cbn [lholds length] in *; [rewrite len_nil; lia| |lia].
    change (len [x]) with 1. split; [reflexivity|]. split; lia.
  - destruct l; cbn; auto.
Qed.

Lemma name_table_lookup (qsort : list name_item -> list name_item) items :
  (forall l, Permutation (qsort l) l) ->
  (forall l, StronglySorted (fun a b => name_item_le a b = true) (qsort l)) ->
  exists table, name_table_make_bst qsort items = Ok table /\ Permutation table items /\
    forall h, exists ms, Permutation ms (filter (fun x => ni_hash x =? h) items) /\
      forall idx, goodbye_search ni_hash table h idx = Ok (nth_error ms (N.to_nat idx)).
Proof.
  intros Hp Hs. unfold name_table_make_bst. destruct (N.leb_spec (len items) 1) as [H|H].
  - exists items. split; [reflexivity|]. split; [reflexivity|]. intros h. eexists. split; [apply Permutation_refl|].
    intros idx. apply single_lookup. unfold len in H. lia.
  - assert (Hl : length (qsort items) = length items) by (apply Permutation_length, Hp).
    destruct (make_bst_lookup ni_hash (qsort items) (fun _ => None)) as (o' & l & E & El & Hpl & _ & Hlook).
    + intros E. rewrite E in Hl. cbn in Hl. unfold len in H. lia.
    + apply name_item_sorted, Hs.
    + rewrite E. cbn [bind]. rewrite Hl in El. rewrite El. exists l. split; [reflexivity|].
      split; [etransitivity; [exact Hpl|apply Hp]|]. intros h. destruct (Hlook h) as (ms & Hm & Hq).
      exists ms. split; [|exact Hq]. rewrite Hm. apply filter_perm, Hp.
Qed.

(** An executable sort satisfying the hypotheses about qsort(). *)
Fixpoint ni_insert (x : name_item) (l : list name_item) : list name_item :=
  match l with
  | [] => [x]
  | y :: l' => if name_item_le x y then x :: l else y :: ni_insert x l'
  end.
Definition ni_sort (l : list name_item) : list name_item := fold_right ni_insert [] l.
Lemma ni_insert_perm x l : Permutation (ni_insert x l) (x :: l).
Proof. induction l as [|y l IH]; cbn [ni_insert]; [reflexivity|]. destruct (name_item_le x y); [reflexivity|].
  rewrite IH. apply perm_swap. Qed.
Lemma ni_sort_perm l : Permutation (ni_sort l) l.
Proof. induction l as [|x l IH]; cbn [ni_sort fold_right]; [reflexivity|]. fold (ni_sort l).
  rewrite ni_insert_perm, IH. reflexivity. Qed.
Lemma ni_sort_sorted l : StronglySorted (fun a b => name_item_le a b = true) (ni_sort l).
Proof.
  induction l as [|x l IH]; cbn [ni_sort fold_right]; [constructor|]. fold (ni_sort l). revert IH. generalize (ni_sort l). clear l.
  intros l. induction l as [|y l IH]; intros Hs; cbn [ni_insert].
  - repeat constructor.
  - inversion Hs as [|? ? Hs' Hf]; subst. destruct (name_item_le x y) eqn:E.
    + constructor; [exact Hs|]. constructor; [exact E|]. eapply Forall_impl; [|exact Hf]. cbv beta. intros z Hz.
      unfold name_item_le in *. lia.
    + constructor; [apply IH, Hs'|]. eapply Permutation_Forall; [symmetry; apply ni_insert_perm|].
      constructor; [|exact Hf]. unfold name_item_le in *. lia.
Qed.
