(** All runs of an encoder have the same result. *)
From Coq Require Import Sorted Permutation.
From Verif Require Import Base FeatureFlags ArchiveBase Bst Encoder EncoderSpec EncoderProofs.
Local Open Scope N_scope.

Section Enc.
Variable ev : eenv.

(** The result of a run compared to what a function says. *)
Definition agree (o : list N) (r : eoutcome) (R : W unit) : Prop :=
  (exists more, fst R = o ++ more /\ (r = EFinished -> more = [])) /\
  match snd R with
  | Ok _ => r = EFinished
  | Err e => r = EFailed e
  | Abort | UB => r = ECrashed
  end.

Lemma agree_wout b o r R : agree o r R -> agree (b ++ o) r (wout b R).
Proof.
  intros [(m & A & B) C]. split; [|exact C]. exists m. unfold wout. cbn. rewrite A, app_assoc. auto.
Qed.
Lemma agree_err er R : snd R = Err er -> agree [] (EFailed er) R.
Proof. intros H. split; [exists (fst R); split; [reflexivity|discriminate]|]. rewrite H. reflexivity. Qed.
Lemma agree_crash R : crash (snd R) -> agree [] ECrashed R.
Proof. intros H. split; [exists (fst R); split; [reflexivity|discriminate]|]. destruct H as [-> | ->]; reflexivity. Qed.

Lemma get_again e s b : e_buf e = b -> b <> [] -> encoder_get_data ev e s = Ok (Some b, e).
Proof.
  intros <- H. unfold encoder_get_data. destruct (N.ltb_spec 0 (len (e_buf e))); [reflexivity|].
  exfalso. apply H, len_zero_nil. lia.
Qed.

Lemma efetch_ok e1 b e2 (P : list N -> enc -> Prop) : efetch ev e1 b e2 ->
  (forall s b e2, 0 < s -> encoder_get_data ev e1 s = Ok (Some b, e2) -> P b e2 /\ e_buf e2 = b /\ b <> []) ->
  P b e2 /\ e_buf e2 = b /\ b <> [].
Proof.
  induction 1 as [e s b e' Hs H|e b e1 s b' e2 F IH H]; intros A; [eauto|].
  destruct (IH A) as (A1 & A2 & A3). rewrite (get_again e1 s b A2 A3) in H. injection H as <- <-. auto.
Qed.

Lemma J_eof e : e_state e = E_EOF -> encoder_step ev e = Ok (ER_FINISHED, e).
Proof. intros H. unfold encoder_step. rewrite H. reflexivity. Qed.

Lemma eof_or e : e_state e = E_EOF \/ e_state e <> E_EOF.
Proof. destruct (e_state e); auto; right; discriminate. Qed.

Theorem eruns_agree e o r : eruns ev e o r -> J e -> e_state e <> E_EOF -> agree o r (rem ev e).
Proof.
  induction 1 as [e e' H|e er H|e H|e x e' o r H H1 H2 R IH|e x e' b e2 o r H H1 F R IH|e x e' s er H H1 Hs G|e x e' s e2 o r H H1 G R IH|e x e' s H H1 Hs G];
    intros HJ He; pose proof (step_ok ev e HJ He) as SO.
  - rewrite H in SO. cbn in SO. rewrite SO. split; [exists []; auto|reflexivity].
  - rewrite H in SO. apply agree_err, SO.
  - apply agree_crash. destruct H as [H | H]; rewrite H in SO; exact SO.
  - rewrite H in SO. assert (SO' : J e' /\ rem ev e = rem ev e' /\ rankE (e_state e') < rankE (e_state e)).
    { destruct x; try discriminate; try congruence. exact SO. }
    destruct SO' as (A & B & C). rewrite B. destruct (eof_or e') as [E | E]; [|auto].
    assert (X : rem ev e' = wret tt).
    { unfold rem. destruct A as [_ A]. destruct (e_nodes e'); [contradiction|]. rewrite E. reflexivity. }
    rewrite X. inversion R; subst; rewrite (J_eof _ E) in *; try congruence;
      try (match goal with H : _ \/ _ |- _ => destruct H; congruence end);
      try (match goal with Q : Ok _ = Ok _, D : has_data _ = true |- _ => injection Q as <- _; discriminate D end).
    split; [exists []; auto|reflexivity].
  - rewrite H in SO. assert (SO' : forall s, 0 < s -> match encoder_get_data ev e' s with
        | Ok (Some b, e2) => J e2 /\ rem ev e = wout b (rem ev e2) /\ e_buf e2 = b /\ b <> []
        | Ok (None, _) => False | Err er => snd (rem ev e) = Err er | Abort | UB => crash (snd (rem ev e)) end).
    { destruct x; try discriminate; exact SO. }
    destruct (efetch_ok e' b e2 (fun b e2 => J e2 /\ rem ev e = wout b (rem ev e2)) F) as ((A & B) & _ & _).
    { intros s b0 e0 Hs G. specialize (SO' s Hs). rewrite G in SO'. destruct SO' as (A & B & C & D). auto. }
    rewrite B. apply agree_wout. 
    destruct (eof_or e2) as [E | E]; [|auto].
    assert (X : rem ev e2 = wret tt).
    { unfold rem. destruct A as [_ A]. destruct (e_nodes e2); [contradiction|]. rewrite E. reflexivity. }
    rewrite X. inversion R; subst; rewrite (J_eof _ E) in *; try congruence;
      try (match goal with H : _ \/ _ |- _ => destruct H; congruence end);
      try (match goal with Q : Ok _ = Ok _, D : has_data _ = true |- _ => injection Q as <- _; discriminate D end).
    split; [exists []; auto|reflexivity].
  - rewrite H in SO. assert (SO' : snd (rem ev e) = Err er).
    { destruct x; try discriminate; specialize (SO s Hs); rewrite G in SO; exact SO. }
    apply agree_err, SO'.
  - exfalso. rewrite H in SO. 
    assert (Q : encoder_get_data ev e' s = Ok (None, e2) -> encoder_get_data ev e' 1 = Ok (None, e2)).
    { unfold encoder_get_data. destruct (_ <? _); [discriminate|]. destruct (e_nodes e'); [discriminate|].
      destruct (e_state e'); try discriminate.
      - destruct (get_entry_data _ _ _) as [[? ?]| | |]; discriminate.
      - destruct (negb _); [discriminate|]. unfold get_payload_data. destruct (_ <=? _); [auto|].
        intros Z. exfalso. destruct (negb (len _ =? _)); discriminate.
      - destruct (en_dirents e0) as [[|[? ?] ?]|]; discriminate.
      - destruct (en_table e0) as [[? ?]|]; [|discriminate]. destruct (_ <? _); [discriminate|].
        destruct (get_goodbye_data _ _ _ _); discriminate. }
    destruct x; try discriminate; specialize (SO 1 eq_refl); rewrite (Q G) in SO; exact SO.
  - apply agree_crash. rewrite H in SO. destruct x; try discriminate; specialize (SO s Hs); destruct G as [G | G]; rewrite G in SO; exact SO.
Qed.

Lemma muE_wout e b e2 : rem ev e = wout b (rem ev e2) -> b <> [] -> muE ev e2 < muE ev e.
Proof.
  intros H Hb. unfold muE. rewrite H. unfold wout. cbn [fst]. rewrite len_app.
  assert (0 < len b). { destruct b; [contradiction|]. rewrite len_cons. lia. }
  assert (rankE (e_state e2) <= 3) by (destruct (e_state e2); cbn; lia). lia.
Qed.

Theorem eruns_total e : J e -> exists o r, eruns ev e o r.
Proof.
  remember (muE ev e) as k eqn:Ek. revert e Ek. induction k as [k IH] using (well_founded_induction N.lt_wf_0).
  intros e -> HJ. destruct (eof_or e) as [E | E]; [eexists _, _; eapply eruns_finished, J_eof, E|].
  pose proof (step_ok ev e HJ E) as SO. destruct (encoder_step ev e) as [[x e']|er| |] eqn:H.
  - destruct (has_data x) eqn:D.
    + assert (SO' : match encoder_get_data ev e' 1 with
        | Ok (Some b, e2) => J e2 /\ rem ev e = wout b (rem ev e2) /\ e_buf e2 = b /\ b <> []
        | Ok (None, _) => False | Err er => snd (rem ev e) = Err er | Abort | UB => crash (snd (rem ev e)) end).
      { destruct x; try discriminate; exact (SO 1 eq_refl). }
      destruct (encoder_get_data ev e' 1) as [[[b|] e2]|er| |] eqn:G.
      * destruct SO' as (A & B & C & F). destruct (IH (muE ev e2) (muE_wout _ _ _ B F) e2 eq_refl A) as (o & r & R).
        exists (b ++ o), r. eapply eruns_data; eauto. eapply efetch_first; [|exact G]. lia.
      * contradiction.
      * eexists _, _. eapply eruns_data_failed; eauto. lia.
      * eexists _, _. eapply eruns_data_crashed; eauto. lia.
      * eexists _, _. eapply eruns_data_crashed; eauto. lia.
    + assert (Q : x = ER_FINISHED \/ x = ER_DONE_FILE) by (destruct x; auto; discriminate).
      destruct Q as [-> | ->]; [eexists _, _; eapply eruns_finished; eauto|].
      destruct SO as (A & B & C). destruct (IH (muE ev e')) with (e := e') as (o & r & R); auto.
      { unfold muE. rewrite B. lia. }
      exists o, r. eapply eruns_quiet; eauto. discriminate.
  - eexists _, _. eapply eruns_failed; eauto.
  - eexists _, _. eapply eruns_crashed; eauto.
  - eexists _, _. eapply eruns_crashed; eauto.
Qed.

(** What a new encoder produces. *)
Definition encode (f : fnode) : W (N * ecache) :=
  if S_ISREG (f_mode f) then enc_pay f 0 0 ecache0 else enc_file ev 63 [] None f 0 ecache0.

Lemma J_new f e : encoder_new f = Ok e -> J e /\ e_state e <> E_EOF /\ rem ev e = wbind (encode f) (fun _ => wret tt).
Proof.
  unfold encoder_new. destruct (negb _ && negb _)%bool eqn:M; [discriminate|]. intros H. injection H as <-.
  split; [|split; [discriminate|]].
  - unfold J. cbn. split; [unfold NODES_MAX; change (len [_]) with 1; lia|]. split; [constructor|].
    repeat (split; [reflexivity|]). destruct (S_ISREG (f_mode f)), (S_ISDIR (f_mode f)); auto; discriminate.
  - unfold rem. cbn [e_nodes e_state e_naked en_file e_aoff e_buf e_cache]. unfold e_naked. cbn [e_nodes en_file].
    change (0 + len (@nil N)) with 0. unfold encode. destruct (S_ISREG (f_mode f)).
    + apply wbind_ext. intros [a c]. reflexivity.
    + change (free_of [mkEnode f None None]) with 63%nat. apply wbind_ext. intros [a c]. reflexivity.
Qed.

Theorem new_runs f e o r : encoder_new f = Ok e -> eruns ev e o r ->
  agree o r (fst (encode f), match snd (encode f) with Ok _ => Ok tt | Err e => Err e | Abort => Abort | UB => UB end).
Proof.
  intros H R. destruct (J_new f e H) as (A & B & C). apply eruns_agree in R; auto. rewrite C in R.
  destruct (encode f) as [b [x|er| |]]; cbn in *; auto. rewrite app_nil_r in R. exact R.
Qed.
End Enc.
