(** All along a history of extraction. *)
From Coq Require Import Permutation.
From Verif Require Import Base FeatureFlags ArchiveBase Decoder DecoderSpec DecoderProofs2 DecoderProofs5 Fs Extract ExtractSpec ExtractProofs1 ExtractProofs2 ExtractProofs3
  ExtractProofs4 ExtractProofs5.
Local Open Scope N_scope.

Section History.
Variables (env : denv) (fe : fenv) (cfg : xcfg) (w0 : fs) (b : N).
Hypothesis Hfe : sound_env fe.
Hypothesis Hw0 : sound_fs w0.
Notation undo := (c_undo cfg).
Notation okw := (okw undo w0 b).
Notation good := (good undo w0 b).
Notation ok := (ok fe cfg w0 b).
Notation XI := (XI env w0 b).

Inductive goods : fs -> option N -> list fs -> option N -> Prop :=
| goods_nil w M : goods w M [] M
| goods_cons w M w1 M1 l M2 : good w M w1 M1 -> goods w1 M1 l M2 -> goods w M (w1 :: l) M2.

Lemma last_cons (w w1 : fs) l : last (w1 :: l) w = last l w1.
Proof. revert w w1. induction l as [|a l IH]; intros w w1; [reflexivity|]. transitivity (last (a :: l) w); [reflexivity|]. rewrite (IH w a), (IH w1 a). reflexivity. Qed.
Lemma goods_app w M l M1 l' M2 : goods w M l M1 -> goods (last l w) M1 l' M2 -> goods w M (l ++ l') M2.
Proof.
  intros H. induction H as [w M|w M w1 M1 l M2' G H IH]; intros H'; [exact H'|]. cbn [app]. econstructor; [exact G|]. apply IH. rewrite last_cons in H'. exact H'.
Qed.
Lemma ok_passes {A} (p : prog A) w l o : passes fe p w l o -> forall M Q, ok p w M Q ->
  exists M1, goods w M l M1 /\ match o with Some r => Q r (last l w) M1 | None => True end.
Proof.
  intros H. induction H as [p w|r w|c k t w x w1 l o Hr H IH]; intros M Q HO.
  - exists M. split; [constructor|exact I].
  - exists M. split; [constructor|exact HO].
  - cbn in HO. destruct (HO _ _ _ Hr) as (M1 & G & HO1). destruct (IH _ _ HO1) as (M2 & A1 & A2). exists M2. split; [econstructor; eassumption|].
    destruct o; [|exact I]. rewrite last_cons. exact A2.
Qed.
Lemma goods_okw w M l M1 : okw w M -> goods w M l M1 -> okw (last l w) M1.
Proof.
  intros K H. induction H as [w M|w M w1 M1 l M2 G H IH]; [exact K|]. rewrite last_cons. apply IH, (G_ok _ _ _ _ _ _ _ G).
Qed.

Lemma history_goods x w l : history env fe cfg x w l -> forall M, okw w M -> XI x w M -> exists M1, goods w M l M1.
Proof.
  intros H. induction H as [x w|x w l P|x w l e P|x w l r x' l' P H IH|x p x' w l Hp H IH|x w l H IH]; intros M K HX.
  - exists M. constructor.
  - destruct (ok_passes _ _ _ _ P _ _ (ok_xstep env fe cfg w0 b Hfe Hw0 x w M K HX)) as (M1 & G & _). eauto.
  - destruct (ok_passes _ _ _ _ P _ _ (ok_xstep env fe cfg w0 b Hfe Hw0 x w M K HX)) as (M1 & G & _). eauto.
  - destruct (ok_passes _ _ _ _ P _ _ (ok_xstep env fe cfg w0 b Hfe Hw0 x w M K HX)) as (M1 & G & Q). cbn in Q.
    destruct (IH M1 (goods_okw _ _ _ _ K G) Q) as (M2 & G2). exists M2. eapply goods_app; eassumption.
  - apply IH; [exact K|]. eapply XI_put; eassumption.
  - apply IH; [exact K|]. apply XI_eof, HX.
Qed.

Lemma goods_all w M l M1 : okw w M -> goods w M l M1 -> forall w1, In w1 l -> exists M2, okw w1 M2.
Proof.
  intros K H. induction H as [w M|w M w1 M1 l M2 G H IH]; intros v []; [subst v; exists M1; apply (G_ok _ _ _ _ _ _ _ G)|].
  apply IH; [apply (G_ok _ _ _ _ _ _ _ G)|assumption].
Qed.
Lemma goods_later w M l M1 : okw w M -> goods w M l M1 -> forall i nd, f_ino w i = Some nd -> kind (i_body nd) <> 1 -> M <> Some i -> i < f_next w ->
  forall w1, In w1 l -> exists nd', f_ino w1 i = Some nd' /\ kept undo nd nd'.
Proof.
  intros K H. induction H as [w M|w M w1 M1 l M2 G H IH]; intros i nd Hi Hk HM Hn v Hv; [destruct Hv|].
  destruct (G_settled _ _ _ _ _ _ _ G i nd Hi Hk HM) as (nd1 & A & B). destruct Hv as [<- | Hv]; [eauto|].
  assert (Hk1 : kind (i_body nd1) <> 1) by (rewrite (kept_body _ _ _ B); exact Hk).
  pose proof (proj1 (G_stable _ _ _ _ _ _ _ G)) as L.
  destruct (IH (G_ok _ _ _ _ _ _ _ G) i nd1 A Hk1) with (w1 := v) as (nd2 & C & D); auto; [|lia|].
  - destruct (G_turn _ _ _ _ _ _ _ G) as [E | [E | (j & E & F)]]; rewrite E; [exact HM|discriminate|]. intros Q. injection Q as Q. lia.
  - exists nd2. split; [exact C|]. eapply kept_trans; eassumption.
Qed.
Lemma goods_split w M l M1 l1 w1 l2 : goods w M l M1 -> l = l1 ++ w1 :: l2 -> okw w M -> exists M2, okw w1 M2 /\ goods w1 M2 l2 M1.
Proof.
  intros H. revert l1. induction H as [w M|w M v M1 l M2 G H IH]; intros l1 E K; [destruct l1; discriminate|].
  pose proof (G_ok _ _ _ _ _ _ _ G) as K1.
  destruct l1 as [|a l1]; injection E as -> E; [subst l; exists M1; auto|]. apply (IH l1 E K1).
Qed.

Variables (mode : N) (x : xdec) (l : list fs).
Hypothesis Hnew : xdec_new mode b = Ok x.
Hypothesis Hmode : S_ISDIR mode = true.
Hypothesis Hb : directory w0 b.
Hypothesis Hl : history env fe cfg x w0 l.

Lemma all_goods : exists M, goods w0 None l M.
Proof. apply (history_goods _ _ _ Hl); [apply okw_start, Hw0|eapply XI_start; eassumption]. Qed.

Theorem extraction_kept w i nd : In w l -> f_ino w0 i = Some nd -> ~ inside w0 b i ->
  exists nd', f_ino w i = Some nd' /\ (nd' = nd \/ (undo = true /\ linked w0 b i /\ nd' = without_imm nd)).
Proof.
  intros Hw Hi Ho. destruct all_goods as (M & G). destruct (goods_all _ _ _ _ (okw_start undo w0 b Hw0) G _ Hw) as (M2 & K).
  destruct (K_kept _ _ _ _ _ K _ _ Hi) as [Q | Q]; [contradiction|exact Q].
Qed.
Theorem extraction_final l1 w1 l2 w2 i nd : l = l1 ++ w1 :: l2 -> In w2 l2 -> visible w1 i nd ->
  exists nd', f_ino w2 i = Some nd' /\ kept undo nd nd'.
Proof.
  intros El H2 (E & V1 & d & name & V2 & V3). destruct all_goods as (M & G).
  destruct (goods_split _ _ _ _ _ _ _ G El (okw_start undo w0 b Hw0)) as (M1 & K1 & G1).
  apply (goods_later _ _ _ _ K1 G1 i nd E); auto.
  - intros Q. apply V1. destruct nd as [a body]. destruct body; try discriminate. exists a, ents. exact E.
  - intros Q. destruct (K_mine _ _ _ _ _ K1 i Q) as (_ & _ & Q1). apply V3, (Q1 _ _ V2).
  - eapply (K_fresh _ _ _ _ _ K1). exact V2.
Qed.
End History.
