(** A whole extraction. *)
From Coq Require Import Permutation Sorted.
From Verif Require Import Base FeatureFlags FeatureFlagsProofs ArchiveBase Decoder DecoderSpec DecoderProofs DecoderProofs2 DecoderProofs3 DecoderProofs4 DecoderProofs5 DecoderProofs8 Encoder Fs Extract
  ExtractSpec ExtractProofs1 ExtractProofs2 ExtractProofs3 ExtractProofs5 ExtractedSpec ExtractedProofs1 ExtractedProofs2 ExtractedProofs3 ExtractedProofs4 ExtractedProofs5 ExtractedProofs6 ExtractedProofs7.
Local Open Scope N_scope.

Section Steps.
Variables (env : denv) (fe : fenv) (cfg : xcfg) (flags b : N) (whole : list N).
Hypothesis Hfe : sound_env fe.
Hypothesis Hshift : c_shift cfg < two32.
Hypothesis Hperm : has flags WITH_PERMISSIONS = true -> has flags WITH_READ_ONLY = false.
Hypothesis Hsel : has flags WITH_SELINUX = false.
Hypothesis Hflags : determine_replay_feature_flags (archive_flags whole) (de_mask env) = Ok flags.
Notation wok := (wok fe).
Notation levels := (levels cfg flags b).
Notation hold := (hold cfg flags).
Notation pending := (pending cfg flags b).
Notation J := (J cfg flags b whole).

Definition onward (i : list N) (st : build) (a : dret * xdec) (w1 : fs) : Prop :=
  let '(r, x') := a in feeds st (observe r (x_dec x')) <> Broken ->
    match r with R_FINISHED => exists t (F : N -> Prop), st = Complete t /\ hold F w1 b t | _ => J i (feeds st (observe r (x_dec x'))) x' w1 end.

Lemma J_step i st x w : J i st x w -> wok (xstep env cfg x) w (onward i st).
Proof.
  intros HJ. destruct HJ as [HI Hb Hs Hl Hro Hff Ht]. set (d := x_dec x) in *.
  destruct (d_nodes d) as [|n dup] eqn:En; [contradiction|]. destruct (x_nodes x) as [|c up] eqn:Ex; [contradiction|]. destruct Ht as (F & HF & Ht).
  unfold xstep. fold d. rewrite En, Ex.
  assert (Fin : forall w1 c' (F1 : N -> Prop), (forall j, F1 j -> j < f_next w1) -> ready cfg flags b d n dup c' up st F1 w1 ->
     wok (match decoder_step env d with
          | Ok (r, d') => Ret (Ok (r, mkXdec d' (xtrack cfg (c' :: up) d d')))
          | Err e => Ret (Err e) | Abort => Ret Abort | UB => Ret UB
          end) w1 (onward i st)).
  { intros w1 c' F1 HF1 HR.
    assert (DP := decoder_part7 env cfg flags b whole Hshift i st x w1 n dup c' up F1 c (or_intror I) HI Hb ltac:(fold d; rewrite En; exact Hs) ltac:(fold d; rewrite En, Ex; exact Hl)
      ltac:(fold d; rewrite En; exact Hro) Hff En Ex HF1 HR). fold d in DP.
    destruct (decoder_step env d) as [[r d']| | |]; try exact I. apply wok_ret. unfold onward. cbn [x_dec]. intros Hbr. specialize (DP Hbr).
    destruct r; try exact DP. destruct DP as (t & A & B). exists t, F1. auto. }
  assert (Stay : d_state d <> D_ENTRY -> d_state d <> D_FINALIZE -> d_state d <> D_IN_PAYLOAD -> ready cfg flags b d n dup c up st F w).
  { intros N1 N2 N3. unfold ready. unfold stage in Ht |- *. destruct (d_state d) eqn:Es; try congruence; rewrite ?Es in *; exact Ht. }
  assert (Rp : d_state d <> D_INIT -> replay_of env d = flags) by (intros Q; eapply stage_flags; eassumption).
  assert (Hsn : solid n) by (inversion Hs; assumption).
  assert (Hnm : up <> [] -> is_component (dn_name n)).
  { intros Q. pose proof (I_names _ HI) as HN. fold d in HN. rewrite En in HN. destruct dup; [destruct up; [congruence|discriminate]|]. cbn [removelast] in HN. inversion HN; assumption. }
  apply wok_bind. unfold write_payload. fold d. rewrite Ex.
  destruct (d_state d) eqn:Es; try (apply wok_ret; apply wok_bind; apply wok_ret; apply (Fin w c F HF); apply Stay; congruence).
  - (* ENTRY *)
    apply wok_ret. apply wok_bind. unfold stage in Ht. rewrite Es in Ht. destruct Ht as (e & frs & He & -> & Hm & Fi & Ht).
    destruct Ht as [[-> Hc] | (Hu & -> & HL)].
    + apply wok_ret. apply (Fin w c F HF). unfold ready. rewrite Es. exists e, frs. split; [exact He|]. split; [reflexivity|]. split; [exact Hm|]. left.
      assert (Hh := I_head _ HI). fold d in Hh. unfold head_ok in Hh. rewrite En, Es in Hh. destruct Hh as (e1 & He1 & Hok1 & Hok2 & Hok3). assert (e1 = e) by congruence. subst e1.
      destruct dup; [|discriminate]. specialize (Hok3 eq_refl). split; [exact Hok3|]. inversion Hm; subst. destruct Hc as (-> & C1 & C2 & a & C3).
      eapply lv_cons with (i := b) (km := []); try reflexivity; auto.
      all: try (exact C3); try (apply (proj1 Hsn), He); try (intros Q; exfalso; apply Q; reflexivity); try (split; [constructor|tauto]); constructor.
    + destruct up as [|p up]; [congruence|]. assert (Hp : exists k, x_fd p = Some k) by (inversion HL; eauto). destruct Hp as [k Hp]. cbn [x_fd xnode0]. rewrite Hp, He, Rp by congruence.
      apply wok_bind. eapply wok_weaken; [apply (wok_levels_realize fe cfg flags b Hshift F w p up frs k (dn_name n) e HF HL Hp (Hnm Hu) Fi (proj1 Hsn _ He))|].
      cbn beta. intros c' w1 [Hw1 Hc']. apply wok_ret. apply (Fin w1 c' F); [intros j Q; specialize (HF j Q); lia|]. unfold ready. rewrite Es. exists e, frs. auto.
  - (* IN_PAYLOAD *)
    unfold stage in Ht. rewrite Es in Ht. destruct Ht as (e & data & frs & He & Tr & -> & Hm & Hp).
    assert (Hx : exists k, x_fd c = Some k).
    { destruct Hp as (_ & _ & _ & _ & _ & [(Sk & _) | (_ & t & k & bd & a & _ & _ & _ & _ & _ & _ & _ & [(_ & Q & _) | (Q & _)] & _)]); unfold mode_of in *; cbn [fr_entry] in *; [|eauto|congruence].
      rewrite skip_plain in Sk by (rewrite Tr; rewrite orb_true_r; reflexivity). discriminate. }
    destruct Hx as [k Hx]. rewrite Hx. eapply wok_weaken; [apply (wok_pending_write fe cfg flags b Hshift F w (dn_name n) e data frs c up k _ Hp Hx)|].
    cbn beta. intros _ w1 [Hw1 Hp1]. apply wok_bind. apply wok_ret. apply (Fin w1 c F); [rewrite Hw1; exact HF|]. unfold ready. rewrite Es. exists e, (data ++ takeN (d_step d) (d_buf d)), frs. auto 10.
  - (* FINALIZE *)
    apply wok_ret. apply wok_bind. unfold stage in Ht. rewrite Es in Ht. destruct Ht as (f & frs & -> & Hm1 & Hm2 & Ht). destruct Hm1 as [Hm0 Hm1]. rewrite Hm1, Hm0, Rp by congruence.
    apply wok_bind. destruct Ht as [HL | Hp].
    + eapply wok_weaken; [apply (wok_finish_dir fe cfg flags b Hfe Hshift Hperm Hsel F w f frs c up HF HL)|].
      cbn beta. intros _ w1 (F1 & HF1 & H1). apply wok_ret. apply (Fin w1 c F1 HF1). unfold ready. rewrite Es. exists f, frs. split; [reflexivity|]. split; [split; [exact Hm0|exact Hm1]|]. split; [exact Hm2|exact H1].
    + destruct up as [|p up]; [destruct Hp as [Q _]; congruence|].
      assert (Hk : exists k, x_fd p = Some k).
      { destruct Hp as (_ & _ & _ & _ & _ & [(_ & _ & Q) | (_ & t & k & bd & a & Q)]); [inversion Q; eauto|]. do 9 apply proj2 in Q. inversion Q; eauto. }
      destruct Hk as [k Hk]. rewrite Hk. eapply wok_weaken; [apply (wok_finish_pending fe cfg flags b Hfe Hshift Hperm Hsel F w f frs c p up k HF Hp Hk)|].
      cbn beta. intros _ w1 (F1 & q & frs' & -> & HF1 & H1). apply wok_ret. apply (Fin w1 c F1 HF1). unfold ready. rewrite Es. exists f, (q :: frs'). split; [reflexivity|]. split; [split; [exact Hm0|exact Hm1]|]. split; [exact Hm2|exact H1].
Qed.

Lemma J_start x mode w : xdec_new mode b = Ok x -> S_ISDIR mode = true -> b < f_next w -> (exists a, f_ino w b = Some (mkInode a (BDir []))) -> J whole (Building []) x w.
Proof.
  intros H Hm Hb Ha. unfold xdec_new in H. destruct (decoder_new mode) as [d| | |] eqn:E; try discriminate. cbn in H. injection H as <-.
  pose proof (Inv_new _ _ E) as HI. unfold decoder_new in E. destruct (_ && _ && _)%bool; [discriminate|]. injection E as <-.
  constructor; cbn [x_dec x_nodes d_nodes d_bound]; auto.
  - constructor; [|constructor]. split; [discriminate|]. cbn.
    unfold S_ISREG, S_ISBLK. rewrite (type_excl mode S_IFDIR S_IFREG), (type_excl mode S_IFDIR S_IFBLK); auto; discriminate.
  - unfold flags_ok. cbn. auto.
  - exists (fun _ => False). split; [tauto|]. unfold stage. cbn. split; [reflexivity|]. split; [reflexivity|]. split; [reflexivity|]. unfold fresh. auto.
Qed.

Theorem J_extracts x w i ob w' : extracts env fe cfg x w i ob w' -> forall st t, J i st x w -> feeds st ob = Complete t -> holds flags cfg w' b t.
Proof.
  intros H. induction H as [x p x' w i ob w' Hp H IH|x w ob w' H IH|x w w1 i r x' ob w' Hw Hr H IH|x w w1 i x' Hw]; intros st t HJ Hf.
  - eapply IH; [eapply J_put; eassumption|exact Hf].
  - eapply IH; [apply J_eof; exact HJ|exact Hf].
  - pose proof (works_wpr fe _ _ _ _ _ Hw (J_step _ _ _ _ HJ)) as O. cbn in O. rewrite feeds_app in Hf.
    assert (Nb : feeds st (observe r (x_dec x')) <> Broken) by (intros Q; rewrite Q, feeds_broken in Hf; discriminate).
    specialize (O Nb). destruct r; try congruence; eapply IH; eassumption.
  - pose proof (works_wpr fe _ _ _ _ _ Hw (J_step _ _ _ _ HJ)) as O. cbn in O. cbn in Hf.
    assert (Nb : st <> Broken) by congruence. destruct (O Nb) as (t1 & F & Q & Hh). assert (t1 = t) by congruence. subst t1. eapply hold_holds. exact Hh.
Qed.
End Steps.
