(** Seeking, part 2: once something is found, reading on shows it. *)
From Verif Require Import Base FeatureFlags ArchiveBase Bst Decoder DecoderSpec DecoderProofs DecoderProofs2 DecoderProofs3 DecoderProofs4 DecoderProofs5 DecoderProofs6 DecoderProofs7 Encoder EncoderProofs RoundTrip1 RoundTrip2 RoundTrip3 RoundTrip4 Seek SeekSpec SeekProofs1.
Local Open Scope N_scope.
Local Arguments fld : simpl never.

(** ** A decoder that isn't seeking runs as one that doesn't know about seeking *)
Lemma track_none s r d : s_st s = SNone -> s_st (track s r d) = SNone /\ s_d (track s r d) = d.
Proof.
  intros E. unfold track. destruct (len (d_nodes (s_d s)) <? len (d_nodes d)); [auto|].
  destruct (len (d_nodes d) <? len (d_nodes (s_d s))).
  - destruct (d_nodes (s_d s)); [auto|]. destruct (s_x s); auto.
  - destruct (s_x s); [auto|]. destruct r; auto; destruct (d_state d); auto; try (destruct (d_nodes d); [auto|]; destruct (S_ISREG (node_mode d0)); auto).
Qed.
Lemma srun_drun env hash s i o r : srun env hash s i o r -> s_st s = SNone -> drun env (s_d s) i o r.
Proof.
  induction 1 as [s p i s' o r H R IH | s o r R IH | s i x s' o r H X R IH | s i s' H | s i e H | s s' E H | s i H | s i x s' H X]; intros Hs.
  - unfold sput in H. destruct (decoder_put_data (s_d s) p) as [d| | |] eqn:P; try discriminate. cbn [bind] in H. injection H as <-.
    eapply drun_put; [exact P|]. apply IH. exact Hs.
  - apply drun_eof. apply IH. exact Hs.
  - unfold sstep in H. rewrite Hs in H. destruct (decoder_step env (s_d s)) as [[y d]| | |] eqn:P; try discriminate. cbn [bind] in H.
    injection H as -> <-. destruct (track_none s x d Hs) as [T1 T2]. rewrite T2 in *. eapply drun_step; [exact P|exact X|]. apply IH. exact T1.
  - unfold sstep in H. rewrite Hs in H. destruct (decoder_step env (s_d s)) as [[y d]| | |] eqn:P; try discriminate. cbn [bind] in H.
    injection H as -> <-. destruct (track_none s R_FINISHED d Hs) as [T1 T2]. rewrite T2. apply drun_finished. exact P.
  - unfold sstep in H. rewrite Hs in H. destruct (decoder_step env (s_d s)) as [[y d]| | |] eqn:P; try discriminate. cbn [bind] in H. 
    injection H as <-. apply drun_failed. exact P.
  - unfold sstep in H. rewrite Hs in H. destruct (decoder_step env (s_d s)) as [[y d]| | |] eqn:P; try discriminate. cbn [bind] in H.
    injection H as -> <-. eapply drun_starved; [exact E|exact P].
  - apply drun_crashed. unfold sstep in H. rewrite Hs in H. destruct (decoder_step env (s_d s)) as [[y d]| | |] eqn:P; cbn [bind] in H; destruct H; try discriminate; auto.
  - exfalso. unfold sstep in H. rewrite Hs in H. destruct (decoder_step env (s_d s)) as [[y d]| | |] eqn:P; try discriminate. cbn [bind] in H.
    injection H as <- _. exact (X y eq_refl).
Qed.
Lemma drun_srun env hash d i o r : drun env d i o r -> forall s, s_st s = SNone -> s_d s = d -> srun env hash s i o r.
Proof.
  induction 1 as [d p i d' o r H R IH | d o r R IH | d i x d' o r H X R IH | d i d' H | d i e H | d d' E H | d i H]; intros s Hs Hd.
  - eapply srun_put; [unfold sput; rewrite Hd, H; reflexivity|]. apply IH; auto.
  - apply srun_eof. apply IH; [exact Hs|]. unfold sput_eof. cbn. rewrite Hd. reflexivity.
  - destruct (track_none s x d' Hs) as [T1 T2]. rewrite <- T2. eapply srun_step; [unfold sstep; rewrite Hs, Hd, H; reflexivity|exact X|]. apply IH; auto.
  - destruct (track_none s R_FINISHED d' Hs) as [T1 T2]. rewrite <- T2. eapply srun_finished. unfold sstep; rewrite Hs, Hd, H; reflexivity.
  - apply srun_failed. unfold sstep; rewrite Hs, Hd, H; reflexivity.
  - eapply srun_starved; [rewrite Hd; exact E|]. unfold sstep; rewrite Hs, Hd, H; reflexivity.
  - apply srun_crashed. unfold sstep; rewrite Hs, Hd. destruct H as [-> | ->]; auto.
Qed.

(** Whatever is put in. *)
Lemma drun_any env d i o r : Inv d -> d_eof d = false -> erun env (full d i) o r -> drun env d i o r.
Proof.
  intros HI He R. apply erun_drun in R; [|apply Inv_full, HI|reflexivity].
  set (d' := mkDec (d_state d) (d_ff d) (d_nodes d) (d_buf d ++ i) (d_eof d) (d_aoff d) (d_poff d) (d_step d) (d_bound d)).
  assert (R' : drun env d' [] o r) by (apply drun_eof; exact R).
  replace i with (i ++ []) by apply app_nil_r. eapply drun_put; [|exact R'].
  unfold decoder_put_data. destruct (N.eqb_spec (len i) 0) as [E | E].
  - apply len_zero_nil in E. subst i. unfold d'. rewrite app_nil_r. destruct d; reflexivity.
  - rewrite He. unfold d'. rewrite He. reflexivity.
Qed.

Section Show.
Variables (env : denv) (ev : eenv) (hash : list N -> N) (b : list N).
Let ff := ev_ff ev.

(** The data the decoder has and what the caller puts in next are the archive from [a] on. *)
Definition at_buf (d : dec) (a pos : N) : Prop :=
  d_step d <= len (d_buf d) /\ d_aoff d + d_step d = a /\ dropN (d_step d) (d_buf d) = takeN (pos - a) (dropN a b) /\
  a <= pos <= len b /\ d_eof d = false.

Lemma buf_rest a pos : a <= pos <= len b -> takeN (pos - a) (dropN a b) ++ dropN pos b = dropN a b.
Proof.
  intros H. replace (dropN pos b) with (dropN (pos - a) (dropN a b)) by (rewrite dropN_dropN; f_equal; lia). apply takeN_dropN.
Qed.

Lemma found_shows s n up p t bt rest pos k : s_st s = SNone -> d_state (s_d s) = D_ENTERED -> d_nodes (s_d s) = n :: up ->
  d_bound (s_d s) = len up -> at_buf (s_d s) (dn_entry_offset n) pos -> path_of (n :: up) = p -> Forall is_component p ->
  dropN (dn_entry_offset n) b = bt ++ rest -> len b < UINT64_MAX - 16 -> arch ev t bt -> dec_tree ff t -> deep k t ->
  len (n :: up) + N.of_nat k <= NODES_MAX -> (up = [] -> exists m ents, t = TDir m ents) ->
  ff_ok env ff (d_ff (s_d s)) -> match t with TOther _ => next_ok rest | _ => True end ->
  shows env hash s (dropN pos b) p t.
Proof.
  intros Hs Hd Hn Hb (B1 & B2 & B3 & B4 & B5) Hp Fc Hbt Hlen A DT Dp Hk Hroot Hff Hnx. set (d := s_d s) in *.
  assert (HI : Inv d).
  { constructor.
    - exact B1.
    - unfold inner. rewrite Hn, Hb. cbn [tl]. rewrite N.sub_diag. constructor.
    - unfold head_ok. rewrite Hn, Hd. exact I.
    - rewrite Hn. rewrite <- Hp in Fc. unfold path_of in Fc. apply Forall_rev in Fc. rewrite rev_involutive in Fc.
      rewrite Forall_map in Fc. exact Fc.
    - rewrite Hn. lia.
    - rewrite Hd. discriminate. }
  assert (R : erun env (full d (dropN pos b)) (tree_obs p t ++ []) (Finished rest)).
  { rewrite <- Hp.
    eapply (proj1 (run_tree env ev (len up)) t bt A DT k D_ENTERED (full d (dropN pos b)) n up rest (dn_entry_offset n) (d_ff d) [] (Finished rest));
      try first [reflexivity | exact Dp | exact Hk | exact Hff | exact Hnx].
    - constructor; try reflexivity; try assumption.
      + cbn [full d_step d_buf]. rewrite dropN_app_le by exact B1. rewrite B3, buf_rest by exact B4. exact Hbt.
      + cbn [full d_step d_buf]. rewrite len_app. lia.
    - assert (L : len (dropN (dn_entry_offset n) b) = len bt + len rest) by (rewrite Hbt, len_app; reflexivity). rewrite len_dropN in L. lia.
    - left. reflexivity.
    - intros Z. apply Hroot. apply N.eqb_eq in Z. rewrite len_cons in Z. apply len_zero_nil. lia.
    - intros d' nd' _ R'. destruct R' as [R1 R2 R3 R4 R5 R6 R7 R8].
      rewrite <- R4. replace (dropN (d_step d') (d_buf d')) with (d_buf (enter (adv d') D_EOF 0)) by reflexivity. apply erun_finished.
      unfold decoder_step. rewrite R1, R3. rewrite advance_ok by exact R5. cbn [bind]. unfold adv. rewrite R1, R3. cbn [d_nodes d_state step_node].
      unfold step_node. cbn [d_state d_bound]. rewrite R8. rewrite N.leb_refl. reflexivity. }
  rewrite app_nil_r in R. split.
  - exists (tree_obs p t), (Finished rest). eapply drun_srun; [|exact Hs|reflexivity]. apply drun_any; [exact HI|exact B5|exact R].
  - intros o r SR. apply srun_drun in SR; [|exact Hs]. apply drun_erun in SR; [|exact HI|fold d; rewrite B5; discriminate].
    destruct (erun_det _ _ _ _ R _ _ SR) as [-> <-]. eauto.
Qed.
End Show.
