(** Runs with digests are runs: they end alike, and every run can be one. *)
From Verif Require Import Base FeatureFlags ArchiveBase Bst Encoder EncoderSpec Decoder DecoderSpec DecoderProofs DecoderProofs2
  Digest DigestSpec DigestProofs2 DigestProofs3.
Local Open Scope N_scope.

Definition seen (l : list gobs) : list obs := concat (map (fun x => match x with GSee o => [o] | GDigests _ _ => [] end) l).
Lemma seen_see l o : seen (map GSee l ++ o) = l ++ seen o.
Proof. induction l as [|x l IH]; [reflexivity|]. cbn [map app]. change (seen (GSee x :: map GSee l ++ o)) with (x :: seen (map GSee l ++ o)). rewrite IH. reflexivity. Qed.

Lemma asks_total {S} (get : S -> res (list N * S)) s : exists v s', asks get s (Some v) s'.
Proof. destruct (get s) as [[v s']|e| |] eqn:E; eexists; eexists; [eapply asked|eapply asked_error|eapply asked_abort|eapply asked_ub]; eassumption. Qed.

Lemma asks_gd H get s v s' : (get = gd_payload H \/ get = gd_hardlink H \/ get = gd_archive H) -> asks get s v s' -> fst s' = fst s.
Proof.
  intros Q A. destruct A as [s|s v s' G|s e G|s G|s G]; try reflexivity. destruct s as [d g]. destruct Q as [-> | [-> | ->]].
  - unfold gd_payload in G. destruct (negb _); [discriminate|]. destruct (d_state d); try discriminate. destruct (g_bad_p g); [discriminate|].
    destruct (d_nodes d); [discriminate|]. destruct (_ =? _); [discriminate|]. destruct (_ && _)%bool; [discriminate|].
    destruct (digest_read _ _) as [[? ?]| | |]; try discriminate. injection G as <- <-. reflexivity.
  - unfold gd_hardlink in G. destruct (negb _); [discriminate|]. destruct (d_state d); try discriminate. destruct (g_bad_h g); [discriminate|].
    destruct (d_nodes d); [discriminate|]. destruct (_ =? _); [discriminate|]. destruct (S_ISDIR _); [discriminate|].
    destruct (digest_read _ _) as [[? ?]| | |]; try discriminate. injection G as <- <-. reflexivity.
  - unfold gd_archive in G. destruct (negb _); [discriminate|]. destruct (d_state d); try discriminate.
    destruct (digest_read _ _) as [[? ?]| | |]; try discriminate. injection G as <- <-. reflexivity.
Qed.

Lemma grun_drun H env s i o r : grun H env s i o r -> forall rest v, r = GFinished rest v -> drun env (fst s) i (seen o) (Finished rest).
Proof.
  induction 1 as [d g p i d' o r P R IH | d g o r R IH | s i x s' o r ST N1 N2 R IH | s i s1 vp s2 vh s3 o r ST AP AH R IH | s i s1 v s2 ST AA | s i];
    intros rest v0 E.
  - eapply drun_put; [exact P|]. exact (IH _ _ E).
  - apply drun_eof. exact (IH _ _ E).
  - rewrite seen_see. unfold gd_step in ST. destruct (decoder_step env (fst s)) as [[x2 d']| | |] eqn:DS; try discriminate.
    cbn [bind] in ST. injection ST as -> <-. eapply drun_step; [exact DS|exact N1|]. exact (IH _ _ E).
  - rewrite seen_see. change (seen (GDigests vp vh :: o)) with (seen o). unfold gd_step in ST. destruct (decoder_step env (fst s)) as [[x2 d']| | |] eqn:DS; try discriminate.
    cbn [bind] in ST. injection ST as -> <-. eapply drun_step; [exact DS|discriminate|].
    specialize (IH _ _ E). apply asks_gd with (H := H) in AP; [|auto]. apply asks_gd with (H := H) in AH; [|auto]. rewrite AH, AP in IH. exact IH.
  - injection E as <- <-. unfold gd_step in ST. destruct (decoder_step env (fst s)) as [[x2 d']| | |] eqn:DS; try discriminate.
    cbn [bind] in ST. injection ST as -> <-. apply drun_finished. exact DS.
  - discriminate.
Qed.

(** All digests can be asked for. *)
Lemma drun_grun H env d i o r : drun env d i o r -> forall rest g, r = Finished rest ->
  exists o' v, grun H env (d, g) i o' (GFinished rest (Some v)) /\ seen o' = o.
Proof.
  induction 1 as [d p i d' o r P R IH | d o r R IH | d i x d' o r ST N R IH | d i d' ST | | |]; intros rest g E; try discriminate.
  - destruct (IH rest g E) as (o' & v & G & S). exists o', v. split; [eapply grun_put; eassumption|exact S].
  - destruct (IH rest g E) as (o' & v & G & S). exists o', v. split; [apply grun_eof; exact G|exact S].
  - assert (GS : gd_step env (d, g) = Ok (x, (d', note g x d'))). { unfold gd_step. cbn [fst snd]. rewrite ST. reflexivity. }
    assert (C : x = R_DONE_FILE \/ x <> R_DONE_FILE) by (destruct x; auto; right; discriminate).
    destruct C as [-> | C].
    + destruct (asks_total (gd_payload H) (d', note g R_DONE_FILE d')) as (vp & s2 & AP). destruct (asks_total (gd_hardlink H) s2) as (vh & s3 & AH).
      destruct s3 as [d3 g3]. assert (d3 = d'). { apply asks_gd with (H := H) in AP; [|auto]. apply asks_gd with (H := H) in AH; [|auto]. cbn [fst] in *. congruence. } subst d3.
      destruct (IH rest g3 E) as (o' & v & G & S). eexists _, v. split; [eapply grun_done; eassumption|].
      cbn [fst]. rewrite seen_see. change (seen (GDigests (Some vp) (Some vh) :: o')) with (seen o'). rewrite S. reflexivity.
    + destruct (IH rest (note g x d') E) as (o' & v & G & S). eexists _, v. split; [eapply grun_step; eassumption|].
      cbn [fst]. rewrite seen_see, S. reflexivity.
  - injection E as <-. assert (GS : gd_step env (d, g) = Ok (R_FINISHED, (d', note g R_FINISHED d'))). { unfold gd_step. cbn [fst snd]. rewrite ST. reflexivity. }
    destruct (asks_total (gd_archive H) (d', note g R_FINISHED d')) as (v & s2 & AA). exists [], v. split; [|reflexivity].
    exact (grun_finished H env _ i _ _ _ GS AA).
Qed.

(** ** The encoder *)
Lemma ge_get_fst ev s n o s' : ge_get_data ev s n = Ok (o, s') -> encoder_get_data ev (fst s) n = Ok (o, fst s').
Proof.
  destruct s as [e g]. unfold ge_get_data. cbn [fst]. destruct (encoder_get_data ev e n) as [[o' e']| | |]; try discriminate. cbn [bind].
  destruct (0 <? len (e_buf e)); [intros Z; injection Z as <- <-; reflexivity|].
  destruct o'; intros Z; injection Z as <- <-; reflexivity.
Qed.
Lemma gfetch_efetch ev s p s' : gfetch ev s p s' -> efetch ev (fst s) p (fst s').
Proof.
  induction 1 as [s n b s' N G|s b s1 n b' s2 F IH G].
  - eapply efetch_first; [exact N|]. apply ge_get_fst, G.
  - eapply efetch_again; [exact IH|]. eapply ge_get_fst, G.
Qed.
Lemma asks_ge H ev get s v s' : (get = ge_payload H ev \/ get = ge_hardlink H ev) -> asks get s v s' -> fst s' = fst s.
Proof.
  intros Q A. destruct A as [s|s v s' G|s e G|s G|s G]; try reflexivity. destruct s as [d g]. destruct Q as [-> | ->].
  - unfold ge_payload in G. destruct (negb _); [discriminate|]. destruct (e_state d); try discriminate. destruct (g_bad_p g); [discriminate|].
    destruct (e_nodes d); [discriminate|]. destruct (_ && _)%bool; [discriminate|].
    destruct (digest_read _ _) as [[? ?]| | |]; try discriminate. injection G as <- <-. reflexivity.
  - unfold ge_hardlink in G. destruct (negb _); [discriminate|]. destruct (e_state d); try discriminate. destruct (g_bad_h g); [discriminate|].
    destruct (e_nodes d); [discriminate|]. destruct (S_ISDIR _); [discriminate|].
    destruct (digest_read _ _) as [[? ?]| | |]; try discriminate. injection G as <- <-. reflexivity.
Qed.

Lemma gerun_eruns H ev s b o r : gerun H ev s b o r -> forall v, r = GEFinished v -> eruns ev (fst s) b EFinished.
Proof.
  induction 1 as [s s1 v s2 ST AA | s | s s1 vp s2 vh s3 b o r ST AP AH R IH | s x s1 p s2 b o r ST HD F R IH | s x s1 n s2 b o r ST HD G R IH];
    intros v0 E; try discriminate.
  - unfold ge_step in ST. destruct (encoder_step ev (fst s)) as [[x e1]| | |] eqn:ES; try discriminate. cbn [bind] in ST. injection ST as -> <-.
    eapply eruns_finished, ES.
  - unfold ge_step in ST. destruct (encoder_step ev (fst s)) as [[x e1]| | |] eqn:ES; try discriminate. cbn [bind] in ST. injection ST as -> <-.
    apply asks_ge with (H := H) (ev := ev) in AP; [|auto]. apply asks_ge with (H := H) (ev := ev) in AH; [|auto].
    eapply eruns_quiet; [exact ES|reflexivity|discriminate|]. specialize (IH _ E). rewrite AH, AP in IH. exact IH.
  - unfold ge_step in ST. destruct (encoder_step ev (fst s)) as [[x2 e1]| | |] eqn:ES; try discriminate. cbn [bind] in ST. injection ST as -> <-.
    eapply eruns_data; [exact ES|exact HD| |exact (IH _ E)]. apply gfetch_efetch in F. exact F.
  - unfold ge_step in ST. destruct (encoder_step ev (fst s)) as [[x2 e1]| | |] eqn:ES; try discriminate. cbn [bind] in ST. injection ST as -> <-.
    eapply eruns_data_none; [exact ES|exact HD| |exact (IH _ E)]. apply ge_get_fst in G. exact G.
Qed.

Lemma efetch_gfetch ev e p e' : efetch ev e p e' -> forall g, exists g', gfetch ev (e, g) p (e', g').
Proof.
  induction 1 as [e s b e' Hs G|e b e1 s b' e2 F IH G]; intros g.
  - assert (Q : exists g', ge_get_data ev (e, g) s = Ok (Some b, (e', g'))).
    { unfold ge_get_data. rewrite G. cbn [bind]. destruct (0 <? len (e_buf e)); eexists; reflexivity. }
    destruct Q as [g' Q]. exists g'. eapply gfetch_first; eassumption.
  - destruct (IH g) as [g1 F1]. assert (Q : exists g', ge_get_data ev (e1, g1) s = Ok (Some b', (e2, g'))).
    { unfold ge_get_data. rewrite G. cbn [bind]. destruct (0 <? len (e_buf e1)); eexists; reflexivity. }
    destruct Q as [g' Q]. exists g'. eapply gfetch_again; eassumption.
Qed.
Lemma eruns_gerun H ev e b r : eruns ev e b r -> r = EFinished -> forall g, exists o v, gerun H ev (e, g) b o (GEFinished (Some v)).
Proof.
  assert (GS : forall x e e' g, encoder_step ev e = Ok (x, e') -> exists g', ge_step ev (e, g) = Ok (x, (e', g'))).
  { intros x e0 e' g ES. unfold ge_step. cbn [fst]. rewrite ES. cbn [bind]. eauto. }
  induction 1 as [e e' ES|e er ES|e ES|e x e' o r ES HD N R IH|e x e' p e2 o r ES HD F R IH|e x e' s er ES HD Hs G|e x e' s e2 o r ES HD G R IH|e x e' s ES HD Hs G];
    intros E g; try discriminate.
  - destruct (GS _ _ _ g ES) as [g' Q]. destruct (asks_total (ge_archive H ev) (e', g')) as (v & s' & A). exists [], v. eapply gerun_finished; eassumption.
  - destruct (GS _ _ _ g ES) as [g' Q]. assert (x = ER_DONE_FILE) by (destruct x; try discriminate; congruence). subst x.
    destruct (asks_total (ge_payload H ev) (e', g')) as (vp & s2 & AP). destruct (asks_total (ge_hardlink H ev) s2) as (vh & [e3 g3] & AH).
    assert (e3 = e'). { apply asks_ge with (H := H) (ev := ev) in AP; [|auto]. apply asks_ge with (H := H) (ev := ev) in AH; [|auto]. cbn [fst] in *. congruence. } subst e3.
    destruct (IH E g3) as (o2 & v & R2). eexists _, v. eapply gerun_done; eassumption.
  - destruct (GS _ _ _ g ES) as [g' Q]. destruct (efetch_gfetch _ _ _ _ F g') as [g2 F2]. destruct (IH E g2) as (o2 & v & R2).
    exists o2, v. eapply gerun_data; eassumption.
  - destruct (GS _ _ _ g ES) as [g' Q]. assert (Q2 : exists g2, ge_get_data ev (e', g') s = Ok (None, (e2, g2))).
    { unfold ge_get_data. rewrite G. cbn [bind]. destruct (0 <? len (e_buf e')); eexists; reflexivity. }
    destruct Q2 as [g2 Q2]. destruct (IH E g2) as (o2 & v & R2). exists o2, v. eapply gerun_none; eassumption.
Qed.
