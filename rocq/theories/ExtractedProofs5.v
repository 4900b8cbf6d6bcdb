(** The directories that are being filled. *)
From Coq Require Import Permutation Sorted.
From Verif Require Import Base FeatureFlags FeatureFlagsProofs ArchiveBase Decoder DecoderSpec DecoderProofs DecoderProofs5 Encoder Fs Extract ExtractSpec ExtractProofs1 ExtractProofs2 ExtractProofs3
  ExtractedSpec ExtractedProofs1 ExtractedProofs2 ExtractedProofs3 ExtractedProofs4.
Local Open Scope N_scope.

Definition same (es l : list (list N * N)) : Prop := NoDup (map fst es) /\ forall e, In e es <-> In e l.
Lemma same_get es l n i : same es l -> In (n, i) l -> get n es = Some i.
Proof. intros [H1 H2] H. apply get_some; [exact H1|]. apply H2, H. Qed.
Lemma same_none es l n : same es l -> ~ In n (map fst l) -> get n es = None.
Proof. intros [H1 H2] H. apply get_none. intros Q. apply H. apply in_map_iff in Q. destruct Q as (e & <- & Q). apply in_map, H2, Q. Qed.
Lemma same_put es l n i : same es l -> ~ In n (map fst l) -> same (put n i es) ((n, i) :: l).
Proof.
  intros [H1 H2] H. split; [apply put_nodup, H1|]. intros e. rewrite In_put_iff. cbn [In]. rewrite H2. split; [intros [Q | [Q _]]; auto|].
  intros [Q | Q]; [auto|]. right. split; [exact Q|]. intros Q1. apply H. rewrite <- Q1. apply in_map, Q.
Qed.
Lemma same_move es l t n i : same es ((t, i) :: l) -> ~ In t (map fst l) -> ~ In n (map fst l) -> same (put n i (del t es)) ((n, i) :: l).
Proof.
  intros [H1 H2] Ht Hn. split; [apply put_nodup, del_nodup, H1|]. intros e. rewrite In_put_iff, In_del_iff, H2. cbn [In]. split.
  - intros [Q | [[[Q | Q] Q1] Q2]]; auto. exfalso. apply Q1. rewrite <- Q. reflexivity.
  - intros [Q | Q]; [auto|]. right. split; [split; [auto|]|]; intros Q1; [apply Ht|apply Hn]; rewrite <- Q1; apply in_map, Q.
Qed.
Lemma same_nil l : same [] l -> l = [].
Proof. intros [_ H]. destruct l as [|e l]; [reflexivity|]. destruct (proj2 (H e) (or_introl eq_refl)). Qed.
Lemma same_eq es l l' : same es l -> (forall e, In e l <-> In e l') -> same es l'.
Proof. intros [H1 H2] H. split; [exact H1|]. intros e. rewrite H2. apply H. Qed.

Section Levels.
Variables (cfg : xcfg) (flags b : N).

Section Hold.
Variables (F : N -> Prop) (w : fs).
Inductive hold : N -> tree -> Prop :=
| hold_reg i m data a : F i -> f_ino w i = Some (mkInode a (BReg data)) -> attrs_ok flags cfg m a -> xattrs_ok flags m a -> fcaps_ok flags m a -> hold i (TReg m data)
| hold_dir i m kids a es km : F i -> f_ino w i = Some (mkInode a (BDir es)) -> attrs_ok flags cfg m a -> xattrs_ok flags m a -> same es km -> kids_ok kids km -> hold i (TDir m kids)
| hold_lnk i m target a : F i -> f_ino w i = Some (mkInode a (BLnk target)) -> attrs_ok flags cfg m a -> hold i (TLnk m target)
| hold_dev i m x y a : F i -> f_ino w i = Some (mkInode a (BDev (S_ISBLK (m_mode m)) x y)) -> attrs_ok flags cfg m a -> hold i (TDev m x y)
| hold_other i m a : F i -> f_ino w i = Some (mkInode a (if S_ISFIFO (m_mode m) then BFifo else BSock)) -> attrs_ok flags cfg m a -> hold i (TOther m)
with kids_ok : list (list N * tree) -> list (list N * N) -> Prop :=
| kids_nil : kids_ok [] []
| kids_skip n t ks km : ~ restored flags t -> kids_ok ks km -> kids_ok ((n, t) :: ks) km
| kids_cons n t i ks km : restored flags t -> hold i t -> kids_ok ks km -> kids_ok ((n, t) :: ks) ((n, i) :: km).
End Hold.
Scheme hold_mut := Induction for hold Sort Prop with kids_mut := Induction for kids_ok Sort Prop.
Combined Scheme hold_both from hold_mut, kids_mut.

Lemma hold_frame (F : N -> Prop) w (F' : N -> Prop) w' : (forall j, F j -> F' j) -> (forall j, F j -> f_ino w' j = f_ino w j) ->
  (forall i t, hold F w i t -> hold F' w' i t) /\ (forall ks km, kids_ok F w ks km -> kids_ok F' w' ks km).
Proof.
  intros HF Hw.
  enough ((forall i t (h : hold F w i t), hold F' w' i t) /\ (forall ks km (h : kids_ok F w ks km), kids_ok F' w' ks km)) by (split; intros; apply H; assumption).
  apply hold_both; intros.
  - eapply hold_reg; eauto. rewrite Hw by assumption. eassumption.
  - eapply hold_dir; eauto. rewrite Hw by assumption. eassumption.
  - eapply hold_lnk; eauto. rewrite Hw by assumption. eassumption.
  - eapply hold_dev; eauto. rewrite Hw by assumption. eassumption.
  - eapply hold_other; eauto. rewrite Hw by assumption. eassumption.
  - constructor.
  - apply kids_skip; assumption.
  - apply kids_cons; assumption.
Qed.
Lemma kids_in F w ks km : kids_ok F w ks km -> forall n j, In (n, j) km -> exists t, In (n, t) ks /\ restored flags t /\ hold F w j t.
Proof.
  intros H. induction H as [|n t ks km Hr H IH|n t i ks km Hr Hh H IH]; intros m j Q; [destruct Q| |].
  - destruct (IH _ _ Q) as (t' & A & B). exists t'. split; [right; exact A|exact B].
  - destruct Q as [Q | Q]; [injection Q as <- <-; exists t; split; [left; reflexivity|auto]|]. destruct (IH _ _ Q) as (t' & A & B). exists t'. split; [right; exact A|exact B].
Qed.
Lemma kids_names F w ks km : kids_ok F w ks km -> incl (map fst km) (map fst ks).
Proof. intros H n Q. apply in_map_iff in Q. destruct Q as ([m j] & <- & Q). destruct (kids_in _ _ _ _ H _ _ Q) as (t & A & _). apply (in_map fst) in A. exact A. Qed.
Lemma kids_snoc_skip F w ks km n t : kids_ok F w ks km -> ~ restored flags t -> kids_ok F w (ks ++ [(n, t)]) km.
Proof.
  intros H Hr. induction H as [|m s ks km Hs H IH|m s i ks km Hs Hh H IH]; cbn.
  - apply kids_skip; [exact Hr|constructor].
  - apply kids_skip; assumption.
  - apply kids_cons; assumption.
Qed.
Lemma kids_snoc F w ks km n t i : kids_ok F w ks km -> restored flags t -> hold F w i t -> kids_ok F w (ks ++ [(n, t)]) (km ++ [(n, i)]).
Proof.
  intros H Hr Hi. induction H as [|m s ks km Hs H IH|m s j ks km Hs Hh H IH]; cbn.
  - apply kids_cons; [exact Hr|exact Hi|constructor].
  - apply kids_skip; assumption.
  - apply kids_cons; assumption.
Qed.
Lemma hold_holds F w : (forall i t, hold F w i t -> holds flags cfg w i t) /\ (forall ks km, kids_ok F w ks km -> forall es, incl km es -> holds_all flags cfg w es ks).
Proof.
  enough ((forall i t (h : hold F w i t), holds flags cfg w i t) /\ (forall ks km (h : kids_ok F w ks km), forall es, incl km es -> holds_all flags cfg w es ks)).
  { split; intros; [apply H; assumption|]. destruct H as [_ H]. eapply H; eassumption. }
  apply hold_both; intros.
  - eapply holds_reg; eauto.
  - destruct s as [S1 S2]. eapply holds_dir; eauto.
    + intros n j Q. apply S2 in Q. destruct (kids_in _ _ _ _ k _ _ Q) as (t & A & B & _). eauto.
    + apply H. intros e9 Q. apply S2, Q.
  - eapply holds_lnk; eauto.
  - eapply holds_dev; eauto.
  - eapply holds_other; eauto.
  - constructor.
  - apply holds_skipped; auto.
  - eapply holds_next with (j := i); [apply H1; left; reflexivity|assumption|]. apply H0. intros e9 Q. apply H1. right. exact Q.
Qed.

(** Whether a file is restored depends on its type. *)
Lemma restored_skip f : entry_shape (fr_entry f) -> skip flags (m_mode (dt_meta (fr_entry f))) = false <-> restored flags (tree_of f).
Proof.
  intros H. unfold tree_of, skip.
  assert (Ty : forall m t t', is_type m t = true -> t <> t' -> is_type m t' = false) by (intros m t t' Q1 Q2; exact (type_excl m t t' Q2 Q1)).
  destruct H as [m s V T|m V T|m t V T T1 T2 T3|m x y V T X Y|m V T]; cbn [dt_meta dt_symlink dt_dev].
  - rewrite T. cbn [restored]. unfold S_ISLNK, S_ISFIFO, S_ISSOCK, S_ISBLK, S_ISCHR.
    rewrite (Ty _ _ S_IFLNK T ltac:(discriminate)), (Ty _ _ S_IFIFO T ltac:(discriminate)), (Ty _ _ S_IFSOCK T ltac:(discriminate)), (Ty _ _ S_IFBLK T ltac:(discriminate)), (Ty _ _ S_IFCHR T ltac:(discriminate)).
    cbn. tauto.
  - unfold S_ISREG. rewrite (Ty _ _ S_IFREG T ltac:(discriminate)), T. cbn [restored]. unfold S_ISLNK, S_ISFIFO, S_ISSOCK, S_ISBLK, S_ISCHR.
    rewrite (Ty _ _ S_IFLNK T ltac:(discriminate)), (Ty _ _ S_IFIFO T ltac:(discriminate)), (Ty _ _ S_IFSOCK T ltac:(discriminate)), (Ty _ _ S_IFBLK T ltac:(discriminate)), (Ty _ _ S_IFCHR T ltac:(discriminate)).
    cbn. tauto.
  - unfold S_ISREG, S_ISDIR. rewrite (Ty _ _ S_IFREG T ltac:(discriminate)), (Ty _ _ S_IFDIR T ltac:(discriminate)). cbn [restored]. rewrite T. unfold S_ISFIFO, S_ISSOCK, S_ISBLK, S_ISCHR.
    rewrite (Ty _ _ S_IFIFO T ltac:(discriminate)), (Ty _ _ S_IFSOCK T ltac:(discriminate)), (Ty _ _ S_IFBLK T ltac:(discriminate)), (Ty _ _ S_IFCHR T ltac:(discriminate)).
    cbn. destruct (has flags WITH_SYMLINKS); cbn; split; congruence.
  - unfold S_ISREG, S_ISDIR, S_ISLNK, S_ISFIFO, S_ISSOCK. rewrite T. apply orb_true_iff in T. destruct T as [T | T];
    rewrite (Ty _ _ S_IFREG T ltac:(discriminate)), (Ty _ _ S_IFDIR T ltac:(discriminate)), (Ty _ _ S_IFLNK T ltac:(discriminate)), (Ty _ _ S_IFIFO T ltac:(discriminate)), (Ty _ _ S_IFSOCK T ltac:(discriminate));
    cbn; destruct (has flags WITH_DEVICE_NODES); cbn; split; congruence.
  - unfold S_ISREG, S_ISDIR, S_ISLNK, S_ISBLK, S_ISCHR. apply orb_true_iff in T. destruct T as [T | T];
    rewrite (Ty _ _ S_IFREG T ltac:(discriminate)), (Ty _ _ S_IFDIR T ltac:(discriminate)), (Ty _ _ S_IFLNK T ltac:(discriminate)), (Ty _ _ S_IFBLK T ltac:(discriminate)), (Ty _ _ S_IFCHR T ltac:(discriminate)); cbn [restored].
    + rewrite T. unfold S_ISSOCK. rewrite (Ty _ _ S_IFSOCK T ltac:(discriminate)). cbn. destruct (has flags WITH_FIFOS); cbn; split; congruence.
    + rewrite T. unfold S_ISFIFO. rewrite (Ty _ _ S_IFIFO T ltac:(discriminate)). cbn. destruct (has flags WITH_SOCKETS); cbn; split; congruence.
Qed.

(** The open directories, from the innermost; [pend] is the name that was read last, [extra] what is in the directory besides the finished files. *)
Inductive levels (F : N -> Prop) (w : fs) : option (list N) -> list (list N * N) -> N -> list xnode -> list frame -> Prop :=
| lv_nil pend extra lim : levels F w pend extra lim [] []
| lv_cons pend extra lim c fr up frs i a es km :
    x_fd c = Some i -> x_tmp c = None -> i < lim -> ~ F i -> f_ino w i = Some (mkInode a (BDir es)) -> same es (extra ++ km) -> kids_ok F w (fr_kids fr) km ->
    (c_delete cfg = true -> x_dirents c = map fst (fr_kids fr) ++ match pend with Some n => [n] | None => [] end) ->
    StronglySorted str_lt (map fst (fr_kids fr)) -> entry_shape (fr_entry fr) -> S_ISDIR (m_mode (dt_meta (fr_entry fr))) = true -> (up = [] -> i = b) ->
    (up <> [] -> is_component (fr_name fr) /\ fits (fr_name fr) frs = true) ->
    levels F w (Some (fr_name fr)) [(fr_name fr, i)] i up frs -> levels F w pend extra lim (c :: up) (fr :: frs).
Lemma levels_frame (F : N -> Prop) w (F' : N -> Prop) w' : (forall j, F j -> F' j) -> forall pend extra lim up frs, levels F w pend extra lim up frs ->
  (forall j, F' j -> F j \/ lim <= j) -> (forall j, F j \/ j < lim -> f_ino w' j = f_ino w j) -> levels F' w' pend extra lim up frs.
Proof.
  intros HF pend extra lim up frs H. induction H as [pend extra lim|pend extra lim c fr up frs i a es km H1 H2 H3 H4 H5 H6 H7 H8 H9 H10 H11 H12 H12' H IH]; intros Hn Hw; [constructor|].
  econstructor; eauto.
  - intros Q. apply Hn in Q. destruct Q; [contradiction|lia].
  - rewrite Hw by (right; exact H3). exact H5.
  - eapply (proj2 (hold_frame F w F' w' HF ltac:(auto))). exact H7.
  - apply IH.
    + intros j Q. destruct (Hn j Q); [auto|right; lia].
    + intros j Q. apply Hw. destruct Q; [auto|right; lia].
Qed.
Lemma levels_lim F w pend extra lim lim' up frs : levels F w pend extra lim up frs -> lim <= lim' -> levels F w pend extra lim' up frs.
Proof. intros H L. inversion H; subst; [constructor|]. econstructor; eauto. lia. Qed.
End Levels.
