(** Finishing one file. *)
From Coq Require Import Permutation Sorted.
From Verif Require Import Base FeatureFlags FeatureFlagsProofs ArchiveBase Decoder DecoderSpec DecoderProofs5 Encoder Fs Extract ExtractSpec ExtractProofs1 ExtractProofs2 ExtractProofs3 ExtractedSpec
  ExtractedProofs1 ExtractedProofs2.
Local Open Scope N_scope.

Section Finish.
Variables (fe : fenv) (cfg : xcfg) (flags : N).
Hypothesis Hfe : sound_env fe.
Hypothesis Hshift : c_shift cfg < two32.
Hypothesis Hperm : has flags WITH_PERMISSIONS = true -> has flags WITH_READ_ONLY = false.
Hypothesis Hsel : has flags WITH_SELINUX = false.
Notation wok := (wok fe).

Definition finished (m : meta) (i : N) (c : xnode) (bd : body) (a : attrs) : Prop :=
  attrs_ok flags cfg m a /\ (x_fd c = Some i -> xattrs_ok flags m a /\ forall data, bd = BReg data -> fcaps_ok flags m a).

Lemma wok_stat_any dirfd c nm w : wok (stat_child dirfd c nm) w (fun _ w1 => w1 = w).
Proof.
  unfold stat_child, on_child. apply wok_bind. destruct (x_fd c) as [i|]; [|destruct dirfd as [d|]; [|exact I]].
  - apply wok_sys; [exact I|]. cbn [fs_do]. destruct (f_ino w i); cbn; exact I || reflexivity.
  - apply wok_sys; [exact I|]. cbn [fs_do]. unfold on_name, on_dir. destruct (where_ fe w d nm) as [[d1 n1]|]; [|exact I]. destruct (dir_at w d1) as [[nd es]|]; [|exact I].
    destruct (get n1 es) as [i|]; [|exact I]. destruct (f_ino w i); cbn; exact I || reflexivity.
Qed.
Lemma shape_meta e : entry_shape e -> valid_meta (dt_meta e).
Proof. intros H. destruct H; assumption. Qed.

Lemma wok_check dirfd nm e i a bd w : kind_body e bd -> f_ino w i = Some (mkInode a bd) ->
  wok (check_kind dirfd nm e (mkInode a bd)) w (fun _ w1 => w1 = w).
Proof.
  intros K Hi. unfold check_kind. destruct (negb _); [exact I|]. cbn [i_body]. destruct bd as [|es|t|q x y| |]; try reflexivity.
  - destruct dirfd as [d|]; [|exact I]. destruct (dt_symlink e) as [t'|]; [|exact I]. apply wok_bind. apply wok_sys; [exact I|].
    cbn [fs_do]. unfold on_name, on_dir. destruct (where_ fe w d nm) as [[d1 n1]|]; [|exact I]. destruct (dir_at w d1) as [[nd es]|]; [|exact I].
    destruct (get n1 es) as [j|]; [|exact I]. destruct (f_ino w j) as [x|]; [|exact I]. destruct (i_body x); try exact I. cbn [fst snd conv okq]. destruct (beq _ _); exact I || reflexivity.
  - destruct (dt_dev e) as [[? ?]|]; [|exact I]. destruct (_ && _)%bool; exact I || reflexivity.
Qed.

Lemma wok_finalize dirfd c own e w i a bd : let nm := opt_or (x_tmp c) own in let m := dt_meta e in
  leads_to w dirfd c nm i -> f_ino w i = Some (mkInode a bd) -> entry_shape e -> kind_body e bd -> skip flags (m_mode m) = false ->
  (forall t, bd = BLnk t -> a_perm a = 0x1FF /\ x_fd c = None) ->
  (forall es, bd = BDir es -> c_delete cfg = true -> StronglySorted str_lt (x_dirents c) /\ incl (map fst es) (x_dirents c)) ->
  (forall t, x_tmp c = Some t -> exists d ad es, dirfd = Some d /\ d <> i /\ is_component t /\ is_component own /\ t <> own /\
     f_ino w d = Some (mkInode ad (BDir es)) /\ get t es = Some i /\ get own es = None) ->
  wok (finalize_child cfg flags dirfd c own e) w (fun _ w2 => exists a1, finished m i c bd a1 /\
    (x_tmp c = None -> now w i (mkInode a1 bd) w2) /\
    (forall t d ad es, x_tmp c = Some t -> dirfd = Some d -> f_ino w d = Some (mkInode ad (BDir es)) ->
       exists ad1 wm, now w i (mkInode a1 bd) wm /\ now wm d (mkInode ad1 (BDir (put own i (del t es)))) w2)).
Proof.
  intros nm m L Hi Hsh K Sk Hlnk Hdel Htmp. pose proof (shape_meta _ Hsh) as Hm. fold m in Hm.
  assert (Hx : x_fd c = None \/ x_fd c = Some i) by (destruct L as [Q | [Q _]]; auto).
  unfold finalize_child. fold m nm.
  assert (Sel : forall A (p q : A), match dirfd, x_fd c with None, None => p | _, _ => q end = q).
  { intros A p q. destruct L as [Q | (_ & d & ? & ? & Q & _)]; rewrite Q; [destruct dirfd|]; reflexivity. }
  rewrite Sel. unfold skip in Sk; apply orb_false_iff in Sk; destruct Sk as [Sk Sk4]; apply orb_false_iff in Sk; destruct Sk as [Sk Sk3]; apply orb_false_iff in Sk; destruct Sk as [Sk1 Sk2]; rewrite Sk1, Sk2, Sk3, Sk4.
  all: apply wok_bind; eapply wok_weaken; [eapply wok_stat; [exact L|apply now_refl, Hi]|]; cbn beta; intros nd w1 [-> ->].
  all: apply wok_bind; eapply wok_weaken; [eapply wok_check; [exact K|exact Hi]|]; cbn beta; intros _ w1 ->.
  all: cbn [i_body]; apply wok_bind; apply wok_weaken with (Q := fun _ w1 => w1 = w).
  1: destruct bd as [|es| | | |]; try reflexivity; destruct Hx as [Hx | Hx]; rewrite Hx; [reflexivity|]; apply (wok_node_delete fe cfg Hfe w i a es (x_dirents c) Hi); apply Hdel; reflexivity.
  all: cbn beta; intros _ w1 ->.
  all: apply wok_bind; eapply wok_weaken; [apply (wok_owner fe cfg flags w i bd dirfd c nm L m a w Hshift Hm), now_refl, Hi|]; cbn beta; intros nd w1 (a1 & -> & H1 & O1 & P1 & _).
  all: assert (Lp : is_lnk (mkInode a1 bd) = true -> a_perm a1 = 0x1FF /\ S_ISLNK (m_mode m) = true)
         by (unfold is_lnk; cbn [i_body]; destruct bd as [| |t| | |] eqn:Eb; try discriminate; intros _; split; [apply P1, (Hlnk t), eq_refl|apply K]).
  all: apply wok_bind; eapply wok_weaken; [apply (wok_perm fe flags w i bd dirfd c nm L m a1 w1 Hm Hperm Lp H1)|]; cbn beta; intros _ w2 (a2 & H2 & P2 & O2 & _).
  all: assert (Lx : is_lnk (mkInode a2 bd) = true -> x_fd c = None) by (unfold is_lnk; cbn [i_body]; destruct bd as [| |t| | |] eqn:Eb; try discriminate; intros _; apply (Hlnk t), eq_refl).
  all: apply wok_bind; eapply wok_weaken; [apply (wok_xattrs fe flags w i bd c m a2 w2 Hm H2 Lx Hx)|]; cbn beta; intros _ w3 (a3 & H3 & X3 & Xo3).
  all: apply wok_bind; eapply wok_weaken; [apply (wok_fcaps fe flags w i bd c m a3 w3 H3 Hx Xo3)|]; cbn beta; intros _ w4 (a4 & H4 & X4 & Xo4 & Fo4).
  all: rewrite Hsel; cbn [andb].
  all: apply wok_bind; eapply wok_weaken; [apply (wok_times fe flags w i bd dirfd c nm L m a4 w4 H4)|]; cbn beta; intros _ w5 (a5 & H5 & X5 & E5 & T5).
  all: assert (Fin : finished m i c bd a5) by
    (assert (XX : only_xattrs a2 a5) by (eapply only_trans; [exact X3|eapply only_trans; [exact X4|exact X5]]); destruct XX as [XX1 [XX2 XX3]]; destruct O2 as [O2 O2'];
     split; [split; [intros Q; rewrite XX2, XX3, O2, O2'; exact (O1 Q)|split; [intros Q; rewrite XX1; exact (P2 Q)|exact T5]]|];
     intros Q; split; [unfold xattrs_ok; rewrite E5; exact (Xo4 Q)|intros data Eb; unfold fcaps_ok; rewrite E5; exact (Fo4 Q data Eb)]).
  all: apply wok_bind; destruct (x_tmp c) as [t|] eqn:Et.
  1: destruct (Htmp t eq_refl) as (d & ad & es & D1 & D2 & D3 & D4 & D5 & D6 & D7 & D8); rewrite D1.
  1: assert (D6' : f_ino w5 d = Some (mkInode ad (BDir es))) by (rewrite (proj1 (proj2 H5)) by exact D2; exact D6).
  1: eapply wok_weaken; [apply (wok_install fe cfg w5 d ad es t own i _ D3 D4 D5 D6' D7 (proj2 (proj2 H5)) D8)|]; cbn beta; intros _ w6 (ad1 & H6).
  2: apply wok_ret.
  1: apply wok_weaken with (Q := fun _ w2 => w2 = w6);
      [|cbn beta; intros _ w7 ->; exists a5; split; [exact Fin|]; split; [discriminate|]; intros t' d' ad' es' T' D' E'; injection T' as <-; injection D' as <-;
        assert (QQ : es' = es) by congruence; subst es'; exists ad1, w5; split; [exact H5|exact H6]].
  2: apply wok_weaken with (Q := fun _ w2 => w2 = w5); [|cbn beta; intros _ w7 ->; exists a5; split; [exact Fin|]; split; [intros _; exact H5|discriminate]].
  all: destruct (has flags WITH_TIMES); [|reflexivity]; apply wok_bind; eapply wok_weaken; [apply wok_stat_any|]; cbn beta; intros nd7 w7 ->.
  all: destruct (time_granularity_nsec flags); try exact I; destruct (_ =? _); exact I || reflexivity.
Qed.
End Finish.
