(** The file system under the calls that extraction makes. *)
From Coq Require Import Permutation.
From Verif Require Import Base FeatureFlags ArchiveBase Decoder DecoderSpec Fs Extract ExtractSpec.
Local Open Scope N_scope.

(** ** Directories as lists *)
Lemma In_del {A} n (l : list (list N * A)) e : In e (del n l) -> In e l /\ fst e <> n.
Proof.
  induction l as [|[m x] l IH]; cbn [del]; [contradiction|]. destruct (beq m n) eqn:B.
  - intros H. apply IH in H. cbn [In]. tauto.
  - intros [<- | H]; [split; [left; reflexivity|]|apply IH in H; cbn [In]; tauto]. cbn [fst]. apply beq_neq, B.
Qed.
Lemma In_put {A} n (x : A) l e : In e (put n x l) -> e = (n, x) \/ (In e l /\ fst e <> n).
Proof. intros [<- | H]; [left; reflexivity|right; apply In_del, H]. Qed.
Lemma get_In {A} n (l : list (list N * A)) x : get n l = Some x -> In (n, x) l.
Proof.
  induction l as [|[m y] l IH]; cbn [get]; [discriminate|]. destruct (beq m n) eqn:B; [|right; auto].
  apply beq_eq in B. subst m. intros H. injection H as ->. left. reflexivity.
Qed.
Lemma get_put_same {A} n (x : A) l : get n (put n x l) = Some x.
Proof. cbn [put get]. rewrite beq_refl. reflexivity. Qed.

Lemma plain_component n : plain n = true <-> is_component n.
Proof.
  unfold plain, is_component. rewrite !andb_true_iff, !negb_true_iff, N.eqb_neq, forallb_forall, !beq_neq.
  split.
  - intros [[[H1 H2] H3] H4]. repeat split; auto.
    + intros ->. apply H1. reflexivity.
    + intros H. specialize (H2 _ H). discriminate.
    + intros H. specialize (H2 _ H). discriminate.
  - intros (H1 & H2 & H3 & H4 & H5). repeat split; auto.
    + intros H. apply H1. apply len_zero_nil, H.
    + intros b Hb. rewrite negb_true_iff, orb_false_iff, !N.eqb_neq. split; intros ->; contradiction.
Qed.

(** ** Kinds *)
Definition kind (b : body) : N := match b with BReg _ => 0 | BDir _ => 1 | BLnk _ => 2 | BDev _ _ _ => 3 | BFifo => 4 | BSock => 5 end.
Definition stable (w w1 : fs) : Prop :=
  f_next w <= f_next w1 /\ forall i nd, f_ino w i = Some nd -> exists nd1, f_ino w1 i = Some nd1 /\ kind (i_body nd1) = kind (i_body nd).
Lemma stable_refl w : stable w w. Proof. split; [lia|eauto]. Qed.
Lemma stable_trans a b c : stable a b -> stable b c -> stable a c.
Proof.
  intros [H1 H2] [H3 H4]. split; [lia|]. intros i nd H. destruct (H2 _ _ H) as (n1 & A & B). destruct (H4 _ _ A) as (n2 & C & D).
  exists n2. split; congruence.
Qed.

Definition kept (undo : bool) (nd nd' : inode) : Prop := nd' = nd \/ (undo = true /\ nd' = without_imm nd).
Lemma kept_trans u a b c : kept u a b -> kept u b c -> kept u a c.
Proof.
  intros [-> | [U ->]] [-> | [U' ->]]; unfold kept; auto.
Qed.
Lemma kept_body u a b : kept u a b -> i_body b = i_body a.
Proof. intros [-> | [_ ->]]; reflexivity. Qed.

Section World.
Variables (fe : fenv) (undo : bool) (w0 : fs) (b : N).
Hypothesis Hfe : sound_env fe.
Hypothesis Hw0 : sound_fs w0.

Definition new (i : N) : Prop := f_next w0 <= i.
Definition ours (i : N) : Prop := inside w0 b i \/ new i.
Definition odir (w : fs) (i : N) : Prop := ours i /\ directory w i.
Definition hid (n : list N) : Prop := temporary n.

(** [M]: the file that is being made, unless it is a directory. *)
Record okw (w : fs) (M : option N) : Prop := mkOkw {
  K_kept : forall i nd, f_ino w0 i = Some nd -> inside w0 b i \/
    exists nd', f_ino w i = Some nd' /\ (nd' = nd \/ (undo = true /\ linked w0 b i /\ nd' = without_imm nd));
  K_none : forall i, i < f_next w0 -> f_ino w0 i = None -> f_ino w i = None;
  K_next : f_next w0 <= f_next w;
  K_ents : forall d n i, ours d -> entry w d n i -> is_component n /\ (new i \/ linked w0 b i);
  K_fresh : forall d n i, entry w d n i -> i < f_next w;
  K_above : forall i, f_next w <= i -> f_ino w i = None;
  K_lnk : forall i nd t, new i -> f_ino w i = Some nd -> i_body nd = BLnk t -> a_perm (i_attrs nd) = 0x1FF;
  K_mine : forall i, M = Some i -> new i /\ (exists nd, f_ino w i = Some nd /\ kind (i_body nd) <> 1) /\
             (forall d n, entry w d n i -> hid n)
}.

Lemma okw_start : okw w0 None.
Proof.
  destruct Hw0 as [S1 S2]. constructor.
  - intros i nd H. right. exists nd. auto.
  - auto.
  - lia.
  - intros d n i H E. destruct (S1 _ _ _ E). split; [assumption|]. destruct H as [H | H]; [right; exists d, n; auto|].
    destruct E as (a & ents & E & _). rewrite S2 in E by exact H. discriminate.
  - intros d n i E. apply S1 in E. tauto.
  - exact S2.
  - intros i nd t H E. rewrite S2 in E by exact H. discriminate.
  - discriminate.
Qed.
Lemma okw_none w M : okw w M -> okw w None.
Proof. intros [? ? ? ? ? ? ?]. constructor; auto. discriminate. Qed.

(** A directory that is an entry of one of ours is ours. *)
Lemma entry_ours w M d n i : okw w M -> ours d -> entry w d n i -> directory w i -> ours i.
Proof.
  intros K Hd E (a & ents & D). destruct (K_ents _ _ K _ _ _ Hd E) as [_ [H | H]]; [right; exact H|].
  destruct H as (d0 & n0 & I0 & E0). destruct (proj1 Hw0 _ _ _ E0) as [_ L].
  destruct (f_ino w0 i) as [nd|] eqn:E1.
  - destruct (K_kept _ _ K _ _ E1) as [H | (nd' & H1 & H2)]; [left; exact H|]. left. apply inside_sub with d0 n0; auto.
    rewrite D in H1. injection H1 as <-.
    assert (B : i_body nd = BDir ents) by (destruct H2 as [<- | (_ & _ & H2)]; [reflexivity|]; unfold without_imm in H2; congruence).
    destruct nd as [x y]. cbn in B. subst y. exists x, ents. exact E1.
  - rewrite (K_none _ _ K _ L E1) in D. discriminate.
Qed.

(** What a call may do. *)
Definition settled (w : fs) (M : option N) (w1 : fs) : Prop :=
  forall i nd, f_ino w i = Some nd -> kind (i_body nd) <> 1 -> M <> Some i -> exists nd', f_ino w1 i = Some nd' /\ kept undo nd nd'.
Definition turn (w : fs) (M M1 : option N) : Prop := M1 = M \/ M1 = None \/ exists i, M1 = Some i /\ f_next w <= i.
Record good (w : fs) (M : option N) (w1 : fs) (M1 : option N) : Prop := mkGood {
  G_ok : okw w1 M1; G_settled : settled w M w1; G_turn : turn w M M1; G_stable : stable w w1 }.

Lemma settled_refl w M : settled w M w.
Proof. intros i nd H _ _. exists nd. split; [exact H|left; reflexivity]. Qed.
Lemma good_refl w M : okw w M -> good w M w M.
Proof. intros H. constructor; [exact H|apply settled_refl|left; reflexivity|apply stable_refl]. Qed.
Lemma good_none w M w1 M1 : good w M w1 M1 -> good w M w1 None.
Proof. intros [H1 H2 H3 H4]. constructor; [eapply okw_none; eassumption|exact H2|right; left; reflexivity|exact H4]. Qed.

Lemma f_set w i nd j : f_ino (set_ino w i nd) j = if j =? i then Some nd else f_ino w j.
Proof. reflexivity. Qed.

Lemma entry_body w w1 d n i : (forall j, option_map i_body (f_ino w1 j) = option_map i_body (f_ino w j)) -> entry w1 d n i -> entry w d n i.
Proof.
  intros H (a & ents & E & I). specialize (H d). rewrite E in H. cbn in H. destruct (f_ino w d) as [[x y]|] eqn:E1; cbn in H; [|discriminate].
  injection H as <-. exists x, ents. auto.
Qed.

(** Attributes change. *)
Lemma good_attr w M i nd nd' : okw w M -> f_ino w i = Some nd -> i_body nd' = i_body nd ->
  (odir w i \/ M = Some i \/ (undo = true /\ nd' = without_imm nd /\ (new i \/ linked w0 b i \/ ours i))) ->
  (new i -> kind (i_body nd) = 2 -> a_perm (i_attrs nd') = 0x1FF) ->
  good w M (set_ino w i nd') M.
Proof.
  intros K Hi Hb Hwhy Hl.
  assert (HB : forall j, option_map i_body (f_ino (set_ino w i nd') j) = option_map i_body (f_ino w j)).
  { intros j. rewrite f_set. destruct (N.eqb_spec j i) as [-> | _]; [rewrite Hi; cbn; congruence|reflexivity]. }
  constructor.
  - constructor.
    + intros j nj Hj. destruct (K_kept _ _ K _ _ Hj) as [H | (n1 & H1 & H2)]; [left; exact H|].
      rewrite f_set. destruct (N.eqb_spec j i) as [-> | _]; [|right; exists n1; auto].
      assert (n1 = nd) by congruence. subst n1.
      destruct (N.le_gt_cases (f_next w0) i) as [G | G]; [rewrite (proj2 Hw0 _ G) in Hj; discriminate|].
      assert (Hin : ours i -> inside w0 b i) by (intros [? | ?]; [assumption|exfalso; unfold new in *; lia]).
      destruct Hwhy as [[? _] | [? | (Hu & -> & Ho)]]; [left; auto| |].
      * destruct (K_mine _ _ K i) as (X & _); [assumption|]. unfold new in X. lia.
      * destruct Ho as [Ho | [Ho | Ho]]; [unfold new in Ho; lia| |left; auto]. right. eexists; split; [reflexivity|]. right. split; [exact Hu|].
        split; [exact Ho|]. destruct H2 as [-> | (_ & _ & ->)]; reflexivity.
    + intros j L E. rewrite f_set. destruct (N.eqb_spec j i) as [-> | _]; [|apply (K_none _ _ K); assumption].
      rewrite (K_none _ _ K i L E) in Hi. discriminate.
    + apply (K_next _ _ K).
    + intros d n j Hd E. apply (K_ents _ _ K d); [exact Hd|]. eapply entry_body; [exact HB|exact E].
    + intros d n j E. apply (K_fresh _ _ K d n). eapply entry_body; [exact HB|exact E].
    + intros j Hj. rewrite f_set. destruct (N.eqb_spec j i) as [-> | _]; [rewrite (K_above _ _ K i Hj) in Hi; discriminate|apply (K_above _ _ K), Hj].
    + intros j nj t Hj E B. rewrite f_set in E. destruct (N.eqb_spec j i) as [-> | _]; [|eapply (K_lnk _ _ K); eassumption].
      injection E as <-. apply Hl; [exact Hj|]. rewrite Hb in B. rewrite B. reflexivity.
    + intros j Hj. destruct (K_mine _ _ K j Hj) as (A & (nd1 & A1 & A2) & A3). split; [exact A|]. split.
      * rewrite f_set. destruct (N.eqb_spec j i) as [-> | _]; [exists nd'; split; [reflexivity|]; rewrite Hb; congruence|exists nd1; auto].
      * intros d n E. apply A3 with d. eapply entry_body; [exact HB|exact E].
  - intros j nj Hj Hk Hm. rewrite f_set. destruct (N.eqb_spec j i) as [-> | _]; [|exists nj; split; [exact Hj|left; reflexivity]].
    exists nd'. split; [reflexivity|]. assert (nj = nd) by congruence. subst nj.
    destruct Hwhy as [[_ (a & ents & D)] | [? | (Hu & -> & _)]]; [|congruence|right; auto].
    exfalso. apply Hk. rewrite D in Hi. injection Hi as <-. reflexivity.
  - left. reflexivity.
  - split; [cbn; lia|]. intros j nj Hj. rewrite f_set. destruct (N.eqb_spec j i) as [-> | _]; [|exists nj; auto].
    exists nd'. split; [reflexivity|]. rewrite Hb. congruence.
Qed.

(** The file that is being made grows. *)
Lemma good_data w i nd nd' data data' : okw w (Some i) -> f_ino w i = Some nd -> i_body nd = BReg data -> i_body nd' = BReg data' ->
  good w (Some i) (set_ino w i nd') (Some i).
Proof.
  intros K Hi Hb Hb'. destruct (K_mine _ _ K i eq_refl) as (Hnew & _ & Hhid).
  assert (HE : forall d n j, entry (set_ino w i nd') d n j -> entry w d n j).
  { intros d n j (a & ents & E & I). rewrite f_set in E. destruct (N.eqb_spec d i) as [-> | _]; [|exists a, ents; auto].
    injection E as ->. discriminate. }
  constructor.
  - constructor.
    + intros j nj Hj. destruct (K_kept _ _ K _ _ Hj) as [H | (n1 & H1 & H2)]; [left; exact H|]. right.
      rewrite f_set. destruct (N.eqb_spec j i) as [-> | _]; [|exists n1; auto]. rewrite (proj2 Hw0 _ Hnew) in Hj. discriminate.
    + intros j L E. rewrite f_set. destruct (N.eqb_spec j i) as [-> | _]; [|apply (K_none _ _ K); assumption]. unfold new in Hnew. lia.
    + apply (K_next _ _ K).
    + intros d n j Hd E. apply (K_ents _ _ K d); auto.
    + intros d n j E. apply (K_fresh _ _ K d n). auto.
    + intros j Hj. rewrite f_set. destruct (N.eqb_spec j i) as [-> | _]; [rewrite (K_above _ _ K i Hj) in Hi; discriminate|apply (K_above _ _ K), Hj].
    + intros j nj t Hj E B. rewrite f_set in E. destruct (N.eqb_spec j i) as [-> | _]; [|eapply (K_lnk _ _ K); eassumption].
      injection E as <-. congruence.
    + intros j Hj. injection Hj as <-. split; [exact Hnew|]. split.
      * rewrite f_set, N.eqb_refl. exists nd'. split; [reflexivity|]. rewrite Hb'. discriminate.
      * intros d n E. apply Hhid with d. auto.
  - intros j nj Hj Hk Hm. rewrite f_set. destruct (N.eqb_spec j i) as [-> | _]; [congruence|exists nj; split; [exact Hj|left; reflexivity]].
  - left. reflexivity.
  - split; [cbn; lia|]. intros j nj Hj. rewrite f_set. destruct (N.eqb_spec j i) as [-> | _]; [|exists nj; auto].
    exists nd'. split; [reflexivity|]. assert (nj = nd) by congruence. subst nj. rewrite Hb, Hb'. reflexivity.
Qed.

(** A directory gets other entries. *)
Lemma good_ents w M d nd ents ents' : okw w M -> ours d -> dir_at w d = Some (nd, ents) ->
  (forall n i, In (n, i) ents' -> is_component n /\ (new i \/ linked w0 b i) /\ i < f_next w /\ (M = Some i -> hid n)) ->
  good w M (set_ents fe w d nd ents') M.
Proof.
  intros K Hd Hat He. unfold dir_at in Hat. destruct (f_ino w d) as [nd0|] eqn:Ed; [|discriminate].
  destruct (i_body nd0) as [| ents0 | | | |] eqn:Eb; try discriminate. injection Hat as -> ->.
  unfold set_ents. set (nd' := mkInode _ (BDir ents')).
  assert (HE : forall d2 n j, entry (set_ino w d nd') d2 n j -> (d2 = d /\ In (n, j) ents') \/ entry w d2 n j).
  { intros d2 n j (a & es & E & I). rewrite f_set in E. destruct (N.eqb_spec d2 d) as [-> | _]; [|right; exists a, es; auto].
    injection E as _ <-. auto. }
  constructor.
  - constructor.
    + intros j nj Hj. destruct (K_kept _ _ K _ _ Hj) as [H | (n1 & H1 & H2)]; [left; exact H|].
      rewrite f_set. destruct (N.eqb_spec j d) as [-> | _]; [|right; exists n1; auto].
      destruct Hd as [Hd | Hd]; [left; exact Hd|]. rewrite (proj2 Hw0 _ Hd) in Hj. discriminate.
    + intros j L E. rewrite f_set. destruct (N.eqb_spec j d) as [-> | _]; [|apply (K_none _ _ K); assumption].
      rewrite (K_none _ _ K d L E) in Ed. discriminate.
    + apply (K_next _ _ K).
    + intros d2 n j Hd2 E. destruct (HE _ _ _ E) as [[-> I] | E']; [destruct (He _ _ I) as (? & ? & _); auto|]. apply (K_ents _ _ K d2); auto.
    + intros d2 n j E. destruct (HE _ _ _ E) as [[-> I] | E']; [apply He in I; cbn; tauto|apply (K_fresh _ _ K d2 n _ E')].
    + intros j Hj. rewrite f_set. destruct (N.eqb_spec j d) as [-> | _]; [rewrite (K_above _ _ K d Hj) in Ed; discriminate|apply (K_above _ _ K), Hj].
    + intros j nj t Hj E B. rewrite f_set in E. destruct (N.eqb_spec j d) as [-> | _]; [|eapply (K_lnk _ _ K); eassumption].
      injection E as <-. discriminate.
    + intros j Hj. destruct (K_mine _ _ K j Hj) as (A & (nd1 & A1 & A2) & A3). split; [exact A|]. split.
      * rewrite f_set. destruct (N.eqb_spec j d) as [-> | _]; [|exists nd1; auto].
        exfalso. apply A2. assert (nd1 = nd) by congruence. subst nd1. rewrite Eb. reflexivity.
      * intros d2 n E. destruct (HE _ _ _ E) as [[-> I] | E']; [apply He in I; tauto|eauto].
  - intros j nj Hj Hk Hm. rewrite f_set. destruct (N.eqb_spec j d) as [-> | _]; [|exists nj; split; [exact Hj|left; reflexivity]].
    exfalso. apply Hk. assert (nj = nd) by congruence. subst nj. rewrite Eb. reflexivity.
  - left. reflexivity.
  - split; [cbn; lia|]. intros j nj Hj. rewrite f_set. destruct (N.eqb_spec j d) as [-> | _]; [|exists nj; auto].
    exists nd'. split; [reflexivity|]. assert (nj = nd) by congruence. subst nj. rewrite Eb. reflexivity.
Qed.

(** A new inode. *)
Lemma good_new w M nd : okw w M -> (forall ents, i_body nd = BDir ents -> ents = []) ->
  (forall t, i_body nd = BLnk t -> a_perm (i_attrs nd) = 0x1FF) -> good w M (add_ino w nd) M.
Proof.
  intros K Hdir Hl. assert (Hf : forall j, f_ino (add_ino w nd) j = if j =? f_next w then Some nd else f_ino w j) by reflexivity.
  assert (HE : forall d n j, entry (add_ino w nd) d n j -> entry w d n j).
  { intros d n j (a & ents & E & I). rewrite Hf in E. destruct (N.eqb_spec d (f_next w)) as [-> | _]; [|exists a, ents; auto].
    injection E as ->. rewrite (Hdir ents eq_refl) in I. contradiction. }
  assert (Hn : f_ino w (f_next w) = None) by (apply (K_above _ _ K); lia).
  pose proof (K_next _ _ K) as Hnx.
  constructor.
  - constructor.
    + intros j nj Hj. destruct (K_kept _ _ K _ _ Hj) as [H | (n1 & H1 & H2)]; [left; exact H|]. right.
      rewrite Hf. destruct (N.eqb_spec j (f_next w)) as [-> | _]; [congruence|exists n1; auto].
    + intros j L E. rewrite Hf. destruct (N.eqb_spec j (f_next w)) as [-> | _]; [lia|apply (K_none _ _ K); assumption].
    + cbn. lia.
    + intros d n j Hd E. apply (K_ents _ _ K d); auto.
    + intros d n j E. apply HE in E. pose proof (K_fresh _ _ K d n _ E). cbn. lia.
    + intros j Hj. cbn in Hj. rewrite Hf. destruct (N.eqb_spec j (f_next w)) as [-> | _]; [lia|apply (K_above _ _ K); lia].
    + intros j nj t Hj E B. rewrite Hf in E. destruct (N.eqb_spec j (f_next w)) as [-> | _]; [|eapply (K_lnk _ _ K); eassumption].
      injection E as <-. eauto.
    + intros j Hj. destruct (K_mine _ _ K j Hj) as (A & (nd1 & A1 & A2) & A3). split; [exact A|]. split.
      * rewrite Hf. destruct (N.eqb_spec j (f_next w)) as [-> | _]; [congruence|exists nd1; auto].
      * intros d n E. apply A3 with d. auto.
  - intros j nj Hj Hk Hm. rewrite Hf. destruct (N.eqb_spec j (f_next w)) as [-> | _]; [congruence|exists nj; split; [exact Hj|left; reflexivity]].
  - left. reflexivity.
  - split; [cbn; lia|]. intros j nj Hj. rewrite Hf. destruct (N.eqb_spec j (f_next w)) as [-> | _]; [congruence|exists nj; auto].
Qed.

Lemma good_trans w M w1 w2 : good w M w1 M -> good w1 M w2 M -> good w M w2 M.
Proof.
  intros [A1 A2 A3 A4] [B1 B2 B3 B4]. constructor; [exact B1| |left; reflexivity|eapply stable_trans; eassumption].
  intros i nd H Hk Hm. destruct (A2 _ _ H Hk Hm) as (n1 & C1 & C2). destruct (B2 _ _ C1) as (n2 & D1 & D2).
  - rewrite (kept_body _ _ _ C2). exact Hk.
  - exact Hm.
  - exists n2. split; [exact D1|eapply kept_trans; eassumption].
Qed.
End World.
