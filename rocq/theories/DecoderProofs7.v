(** Decoding ends, and cannot succeed on a part of an archive. *)
From Verif Require Import Base FeatureFlags ArchiveBase Decoder DecoderSpec DecoderProofs DecoderProofs2 DecoderProofs3
  DecoderProofs4 DecoderProofs5 DecoderProofs6.
Local Open Scope N_scope.
Local Arguments fld : simpl never.
Local Arguments body : simpl never.

(** ** Termination *)

Definition rank (s : dstate) : N :=
  match s with D_INIT | D_ENTERED => 4 | D_ENTRY => 3 | D_IN_PAYLOAD | D_IN_DIRECTORY | D_GOODBYE => 2 | D_FINALIZE => 1 | D_EOF => 0 end.
Definition mu (d : dec) : N := (len (d_buf d) - d_step d) * 1000 + 10 * len (d_nodes d) + rank (d_state d).

Lemma mu_adv d : mu (adv d) = mu d.
Proof. unfold mu. cbn [adv d_buf d_step d_nodes d_state]. rewrite len_dropN, N.sub_0_r. reflexivity. Qed.

Lemma step_mu env d x d' : Inv d -> decoder_step env d = Ok (x, d') -> x <> R_REQUEST -> x <> R_FINISHED -> mu d' < mu d.
Proof.
  intros HI H Hx1 Hx2. assert (Hne := not_eof_of_step _ _ _ _ H Hx2).
  destruct (nodes_of_Inv _ HI) as (n & up & Hn).
  rewrite decoder_step_adv, Hn in H by assumption.
  rewrite <- (mu_adv d). assert (HI0 := Inv0_adv _ HI).
  assert (Hna : d_nodes (adv d) = n :: up) by exact Hn.
  set (a := adv d) in *. clearbody a. clear Hne Hn HI. clear d. rename a into d.
  assert (HI := proj1 HI0). assert (H0 := proj2 HI0). assert (Hdep := I_depth _ HI). unfold NODES_MAX in Hdep.
  rewrite Hna, len_cons in Hdep.
  assert (SE : step_entry env d n up = Ok (x, d') -> rank (d_state d) = 4 -> mu d' < mu d).
  { unfold step_entry. destruct (parse_entry env (at_root d) (d_ff d) (d_buf d)) as [[|e|e off] ff'] eqn:E;
      [intros Q; injection Q as <- <-; congruence|discriminate|].
    intros Q Hr. injection Q as <- <-. apply parse_entry_ok in E. destruct E as (_ & E1 & E2). unfold ENTRY_SIZE in E2.
    unfold mu. cbn [enter set_nodes set_ff d_buf d_step d_nodes d_state rank]. rewrite Hna, H0, Hr, !len_cons. lia. }
  assert (SP : forall st, d_state st = D_IN_PAYLOAD -> d_step st = 0 -> d_nodes st = n :: up ->
      step_payload st n = Ok (x, d') -> mu d' < mu st).
  { intros st Q1 Q2 Q3. unfold step_payload.
    destruct (_ =? _); [discriminate|]. destruct (negb _); [discriminate|].
    destruct (match dn_entry n with Some e => dt_size e | None => None end) as [s|].
    - destruct (N.ltb_spec s (d_poff st)); [discriminate|].
      destruct (N.eqb_spec (d_poff st) s).
      { intros Z; injection Z as _ <-. unfold mu. cbn [enter d_buf d_step d_nodes d_state rank]. rewrite Q1, Q2. cbn [rank]. lia. }
      destruct (N.ltb_spec 0 (len (d_buf st))) as [L | L].
      { intros Z; injection Z as _ <-. unfold mu. cbn [d_buf d_step d_nodes d_state rank]. rewrite Q1, Q2. cbn [rank]. lia. }
      destruct (d_eof st); [discriminate|]. intros Z; injection Z as <- <-. congruence.
    - destruct (N.ltb_spec 0 (len (d_buf st))) as [L | L].
      { intros Z; injection Z as _ <-. unfold mu. cbn [d_buf d_step d_nodes d_state rank]. rewrite Q1, Q2. cbn [rank]. lia. }
      destruct (d_eof st); [|intros Z; injection Z as <- <-; congruence].
      destruct (negb _); [discriminate|].
      destruct (is_naked st); intros Z; injection Z as <- <-; [congruence|].
      unfold mu. cbn [enter d_buf d_step d_nodes d_state rank]. rewrite Q1, Q2. cbn [rank]. lia. }
  assert (SF : forall st, d_state st = D_IN_DIRECTORY -> d_step st = 0 -> d_nodes st = n :: up ->
      step_filename st n = Ok (x, d') -> mu d' < mu st).
  { intros st Q1 Q2 Q3. unfold step_filename. destruct (parse_filename (d_buf st)) as [|e|name l|g l] eqn:E; [|discriminate| |].
    - intros Z; injection Z as <- <-. congruence.
    - destruct (_ <=? _); [discriminate|]. intros Z; injection Z as _ <-. apply parse_filename_name in E. destruct E as [_ E].
      unfold HDR in E. unfold mu. cbn [enter set_nodes d_buf d_step d_nodes d_state rank]. rewrite Q1, Q2, len_cons. cbn [rank]. lia.
    - destruct (_ && _)%bool; [discriminate|]. intros Z; injection Z as _ <-. apply parse_filename_goodbye in E. destruct E as [E _].
      unfold HDR in E. unfold mu. cbn [enter set_nodes d_buf d_step d_nodes d_state rank]. rewrite Q1, Q2. cbn [rank]. lia. }
  assert (ME : forall s, rank s < rank (d_state d) -> mu (enter d s 0) < mu d).
  { intros s Q. unfold mu. cbn [enter d_buf d_step d_nodes d_state]. rewrite H0. lia. }
  unfold step_node in H. destruct (d_state d) eqn:Hs.
  - destruct (is_naked d); [|auto].
    apply SP in H; auto. eapply N.lt_trans; [exact H|]. apply ME. reflexivity.
  - auto.
  - destruct (_ =? _); [discriminate|].
    destruct (S_ISREG _); [apply SP in H; auto; eapply N.lt_trans; [exact H|]; apply ME; reflexivity|].
    destruct (S_ISDIR _); [apply SF in H; auto; eapply N.lt_trans; [exact H|]; apply ME; reflexivity|].
    injection H as _ <-. apply ME. reflexivity.
  - apply SP; auto.
  - destruct (_ =? _); [discriminate|]. destruct (negb _); [discriminate|]. apply SF; auto.
  - destruct (_ =? _); [discriminate|]. destruct (negb _); [discriminate|]. injection H as _ <-. apply ME. reflexivity.
  - destruct (N.leb_spec (len up) (d_bound d)) as [Lb | Lb]; injection H as <- <-; [congruence|].
    destruct up as [|n' up]; [change (@len dnode []) with 0 in Lb; lia|].
    unfold mu. cbn [enter set_nodes d_buf d_step d_nodes d_state rank]. rewrite Hna, Hs, H0, !len_cons. cbn [rank]. lia.
  - discriminate.
Qed.

Lemma erun_total env d : Inv d -> exists o r, erun env d o r /\ r <> Crashed.
Proof.
  remember (mu d) as k eqn:Ek. revert d Ek. induction k as [k IH] using (well_founded_induction N.lt_wf_0).
  intros d -> HI. pose proof (decoder_step_good env d HI) as G.
  destruct (decoder_step env d) as [[x d']|e| |] eqn:E; try contradiction.
  - destruct x; try (destruct (IH (mu d') ltac:(eapply step_mu; eauto; discriminate) d' eq_refl G) as (o & r & R & Hr);
      eexists _, r; split; [eapply erun_step; eauto; discriminate|exact Hr]).
    + eexists _, _. split; [eapply erun_starved; eauto|discriminate].
    + eexists _, _. split; [eapply erun_finished; eauto|discriminate].
  - eexists _, _. split; [apply erun_failed; eauto|discriminate].
Qed.

Lemma step_eof env d x d' : Inv d -> decoder_step env d = Ok (x, d') -> d_eof d' = d_eof d.
Proof.
  intros HI H.
  assert (He : d_state d = D_EOF \/ d_state d <> D_EOF) by (destruct (d_state d); auto; right; discriminate).
  destruct He as [He | Hne]; [unfold decoder_step in H; rewrite He in H; congruence|].
  destruct (nodes_of_Inv _ HI) as (n & up & Hn).
  rewrite decoder_step_adv, Hn in H by assumption.
  assert (Ha : d_eof (adv d) = d_eof d) by reflexivity. rewrite <- Ha. clear Ha.
  set (a := adv d) in *. clearbody a. clear HI Hne Hn d.
  assert (SP : forall st, step_payload st n = Ok (x, d') -> d_eof d' = d_eof st).
  { intros st. unfold step_payload. destruct (_ =? _); [discriminate|]. destruct (negb _); [discriminate|].
    destruct (match dn_entry n with Some e => dt_size e | None => None end).
    - destruct (_ <? _); [discriminate|]. destruct (_ =? _); [intros E; injection E as _ <-; reflexivity|].
      destruct (_ <? _); [intros E; injection E as _ <-; reflexivity|].
      destruct (d_eof st) eqn:Z; [discriminate|]. intros E; injection E as _ <-; assumption.
    - destruct (_ <? _); [intros E; injection E as _ <-; reflexivity|].
      destruct (d_eof st) eqn:Z; [|intros E; injection E as _ <-; assumption].
      destruct (negb _); [discriminate|]. destruct (is_naked st); intros E; injection E as _ <-; assumption. }
  assert (SF : forall st, step_filename st n = Ok (x, d') -> d_eof d' = d_eof st).
  { intros st. unfold step_filename. destruct (parse_filename _); [|discriminate| |].
    - intros E; injection E as _ <-; reflexivity.
    - destruct (_ <=? _); [discriminate|]. intros E; injection E as _ <-; reflexivity.
    - destruct (_ && _)%bool; [discriminate|]. intros E; injection E as _ <-; reflexivity. }
  assert (SE : step_entry env a n up = Ok (x, d') -> d_eof d' = d_eof a).
  { unfold step_entry. destruct (parse_entry _ _ _ _) as [[| |] ?]; try discriminate;
    intros E; injection E as _ <-; reflexivity. }
  unfold step_node in H. destruct (d_state a).
  - destruct (is_naked a); [apply SP in H; exact H|auto].
  - auto.
  - destruct (_ =? _); [discriminate|]. destruct (S_ISREG _); [apply SP in H; exact H|].
    destruct (S_ISDIR _); [apply SF in H; exact H|]. injection H as _ <-; reflexivity.
  - apply SP; assumption.
  - destruct (_ =? _); [discriminate|]. destruct (negb _); [discriminate|]. apply SF; assumption.
  - destruct (_ =? _); [discriminate|]. destruct (negb _); [discriminate|]. injection H as _ <-; reflexivity.
  - destruct (_ <=? _); injection H as _ <-; reflexivity.
  - discriminate.
Qed.

Lemma erun_drun env d o r : erun env d o r -> Inv d -> d_eof d = true -> drun env d [] o r.
Proof.
  induction 1 as [d x d' o r H H1 H2 H3 IH | d d' H | d e H | d d' H | d H]; intros HI He.
  - apply drun_step; auto. apply IH; [eapply Inv_of_step; eauto|]. rewrite (step_eof _ _ _ _ HI H). exact He.
  - rewrite <- (app_nil_r (d_buf d')). apply drun_finished. exact H.
  - apply drun_failed. exact H.
  - eapply drun_starved; eauto.
  - apply drun_crashed. exact H.
Qed.

Theorem drun_total env mode d i : decoder_new mode = Ok d -> exists o r, drun env d i o r /\ r <> Crashed.
Proof.
  intros H. assert (HI := Inv_new _ _ H). assert (He := new_eof _ _ H).
  destruct (erun_total env (full d i)) as (o & r & R & Hr); [apply Inv_full, HI|].
  exists o, r. split; [|exact Hr].
  apply erun_drun in R; [|apply Inv_full, HI|reflexivity].
  set (d' := mkDec (d_state d) (d_ff d) (d_nodes d) (d_buf d ++ i) (d_eof d) (d_aoff d) (d_poff d) (d_step d) (d_bound d)).
  assert (R' : drun env d' [] o r). { apply drun_eof. exact R. }
  replace i with (i ++ []) by apply app_nil_r.
  eapply drun_put; [|exact R'].
  unfold decoder_put_data. destruct (N.eqb_spec (len i) 0) as [E | E].
  - apply len_zero_nil in E. subst i. unfold d'. rewrite app_nil_r. destruct d; reflexivity.
  - rewrite He. unfold d'. rewrite He. reflexivity.
Qed.

(** ** Truncation *)

(** Without the announcement of the end of file an archive decodes alike. *)
Definition noeof (d : dec) : dec :=
  mkDec (d_state d) (d_ff d) (d_nodes d) (d_buf d) false (d_aoff d) (d_poff d) (d_step d) (d_bound d).

Lemma step_noeof env d x d' : Inv d -> Sh d -> decoder_step env d = Ok (x, d') -> decoder_step env (noeof d) = Ok (x, noeof d').
Proof.
  intros HI (K1 & _ & _) H.
  assert (He : d_state d = D_EOF \/ d_state d <> D_EOF) by (destruct (d_state d); auto; right; discriminate).
  destruct He as [He | Hne].
  { unfold decoder_step in *. cbn [noeof d_state]. rewrite He in *. injection H as <- <-. reflexivity. }
  assert (HI' : Inv (noeof d)) by (destruct HI; constructor; auto).
  destruct (nodes_of_Inv _ HI) as (n & up & Hn).
  rewrite decoder_step_adv, Hn in H by assumption.
  rewrite decoder_step_adv; [|exact HI'|exact Hne]. cbn [noeof d_nodes]. rewrite Hn.
  change (adv (noeof d)) with (noeof (adv d)).
  assert (HI0 := Inv0_adv _ HI). assert (Hna : d_nodes (adv d) = n :: up) by exact Hn.
  assert (Hka : is_naked (adv d) = false) by exact K1.
  set (a := adv d) in *. clearbody a. clear HI HI' Hne Hn K1 d. rename a into d.
  assert (Hh := I_head _ (proj1 HI0)). unfold head_ok in Hh. rewrite Hna in Hh.
  assert (SE : step_entry env d n up = Ok (x, d') -> step_entry env (noeof d) n up = Ok (x, noeof d')).
  { unfold step_entry. cbn [noeof d_ff d_buf]. assert (Hr : at_root (noeof d) = at_root d) by reflexivity. rewrite Hr.
    destruct (parse_entry _ _ _ _) as [[| |] ?]; try discriminate; intros E; injection E as <- <-; reflexivity. }
  assert (SF : forall st, step_filename st n = Ok (x, d') -> step_filename (noeof st) n = Ok (x, noeof d')).
  { intros st. unfold step_filename. cbn [noeof d_buf d_nodes d_aoff].
    destruct (parse_filename _); [|discriminate| |].
    - intros E; injection E as <- <-; reflexivity.
    - destruct (_ <=? _); [discriminate|]. intros E; injection E as <- <-; reflexivity.
    - destruct (_ && _)%bool; [discriminate|]. intros E; injection E as <- <-; reflexivity. }
  assert (SP : forall st e s, dn_entry n = Some e -> dt_size e = Some s ->
             step_payload st n = Ok (x, d') -> step_payload (noeof st) n = Ok (x, noeof d')).
  { intros st e s Q1 Q2. unfold step_payload. rewrite Q1, Q2. cbn [noeof d_buf d_poff d_eof].
    destruct (_ =? _); [discriminate|]. destruct (negb _); [discriminate|].
    destruct (_ <? _); [discriminate|]. destruct (_ =? _); [intros E; injection E as <- <-; reflexivity|].
    destruct (_ <? _); [intros E; injection E as <- <-; reflexivity|].
    destruct (d_eof st) eqn:Z; [discriminate|]. intros E; injection E as <- <-; reflexivity. }
  unfold step_node in *. assert (Hk : is_naked (noeof d) = is_naked d) by reflexivity. rewrite Hk. cbn [noeof d_state].
  destruct (d_state d) eqn:Hs.
  - rewrite Hka in *. auto.
  - auto.
  - destruct Hh as (e & A1 & A2 & A3 & A4). unfold node_mode in *. rewrite A1 in *.
    destruct (_ =? _); [discriminate|].
    destruct (S_ISREG _) eqn:R.
    + destruct (dt_size e) as [s|] eqn:S; [|exfalso; apply (A3 eq_refl eq_refl)].
      change (enter (noeof d) D_IN_PAYLOAD 0) with (noeof (enter d D_IN_PAYLOAD 0)). eapply SP; eauto.
    + destruct (S_ISDIR _); [change (enter (noeof d) D_IN_DIRECTORY 0) with (noeof (enter d D_IN_DIRECTORY 0)); auto|].
      injection H as <- <-. reflexivity.
  - destruct Hh as [Hh | (e & s & A1 & A2 & A3 & A4 & A5 & A6)]; [congruence|]. eapply SP; eauto.
  - destruct (_ =? _); [discriminate|]. destruct (negb _); [discriminate|]. auto.
  - destruct (_ =? _); [discriminate|]. destruct (negb _); [discriminate|]. injection H as <- <-. reflexivity.
  - destruct (_ <=? _); injection H as <- <-; reflexivity.
  - discriminate.
Qed.

Lemma observe_noeof x d : observe x (noeof d) = observe x d.
Proof. destruct x; reflexivity. Qed.

Lemma erun_finished_more env d o r : erun env d o r -> forall rest y, r = Finished rest -> Inv d -> Sh d ->
  drun env (noeof d) y o (Finished (rest ++ y)).
Proof.
  induction 1 as [d x d' o r H H1 H2 H3 IH | d d' H | d e H | d d' H | d H]; intros rest y Hr HI HS; try discriminate.
  - rewrite <- observe_noeof. apply drun_step; [apply step_noeof; auto|exact H1|].
    apply IH; [exact Hr|eapply Inv_of_step; eauto|eapply step_Sh; eauto].
  - injection Hr as <-. change (d_buf d') with (d_buf (noeof d')). apply drun_finished. apply step_noeof; auto.
Qed.

(** If all of [u ++ y] but [rest] is needed, then [u] alone is enough only if it contains all of that. *)
Theorem drun_truncated env mode d u y o rest o' rest' : S_ISDIR mode = true -> decoder_new mode = Ok d ->
  drun env d (u ++ y) o (Finished rest) -> drun env d u o' (Finished rest') -> o' = o /\ rest = rest' ++ y.
Proof.
  intros D H R R'. assert (HI := Inv_new _ _ H). assert (HS := Sh_new _ _ D H). assert (He := new_eof _ _ H).
  apply drun_erun in R'; [|exact HI|rewrite He; discriminate].
  assert (X := erun_finished_more _ _ _ _ R' rest' y eq_refl (Inv_full _ u HI) HS).
  assert (Y : drun env d (u ++ y) o' (Finished (rest' ++ y))).
  { eapply drun_put; [|exact X]. unfold decoder_put_data, noeof, full. cbn.
    destruct (N.eqb_spec (len u) 0) as [E | E].
    - apply len_zero_nil in E. subst u. rewrite app_nil_r. destruct d; cbn in *; subst; reflexivity.
    - rewrite He. reflexivity. }
  destruct (drun_det _ _ _ _ _ _ _ _ H Y R) as [E1 E2]. split; [exact E1|congruence].
Qed.

(** ** What isn't needed is the end of the input *)
Lemma erun_rest env d o r : erun env d o r -> Inv d -> forall rest, r = Finished rest -> exists u, d_buf d = u ++ rest.
Proof.
  assert (SB : forall env d x d', Inv d -> decoder_step env d = Ok (x, d') -> exists u, d_buf d = u ++ d_buf d').
  { clear. intros env d x d' HI H.
    assert (He : d_state d = D_EOF \/ d_state d <> D_EOF) by (destruct (d_state d); auto; right; discriminate).
    destruct He as [He | Hne]; [unfold decoder_step in H; rewrite He in H; injection H as _ <-; exists []; reflexivity|].
    destruct (nodes_of_Inv _ HI) as (n & up & Hn).
    rewrite decoder_step_adv, Hn in H by assumption.
    assert (Ha : d_buf d = takeN (d_step d) (d_buf d) ++ d_buf (adv d)).
    { cbn [adv d_buf]. symmetry. apply takeN_dropN. }
    exists (takeN (d_step d) (d_buf d)). rewrite Ha at 1. f_equal.
    set (a := adv d) in *. clearbody a. clear HI Hne Hn Ha d.
    assert (SP : forall st, step_payload st n = Ok (x, d') -> d_buf st = d_buf d').
    { intros st. unfold step_payload. destruct (_ =? _); [discriminate|]. destruct (negb _); [discriminate|].
      destruct (match dn_entry n with Some e => dt_size e | None => None end).
      - destruct (_ <? _); [discriminate|]. destruct (_ =? _); [intros E; injection E as _ <-; reflexivity|].
        destruct (_ <? _); [intros E; injection E as _ <-; reflexivity|].
        destruct (d_eof st) eqn:Z; [discriminate|]. intros E; injection E as _ <-; reflexivity.
      - destruct (_ <? _); [intros E; injection E as _ <-; reflexivity|].
        destruct (d_eof st) eqn:Z; [|intros E; injection E as _ <-; reflexivity].
        destruct (negb _); [discriminate|]. destruct (is_naked st); intros E; injection E as _ <-; reflexivity. }
    assert (SF : forall st, step_filename st n = Ok (x, d') -> d_buf st = d_buf d').
    { intros st. unfold step_filename. destruct (parse_filename _); [|discriminate| |].
      - intros E; injection E as _ <-; reflexivity.
      - destruct (_ <=? _); [discriminate|]. intros E; injection E as _ <-; reflexivity.
      - destruct (_ && _)%bool; [discriminate|]. intros E; injection E as _ <-; reflexivity. }
    assert (SE : step_entry env a n up = Ok (x, d') -> d_buf a = d_buf d').
    { unfold step_entry. destruct (parse_entry _ _ _ _) as [[| |] ?]; try discriminate;
      intros E; injection E as _ <-; reflexivity. }
    unfold step_node in H. destruct (d_state a).
    - destruct (is_naked a); [apply SP in H; exact H|auto].
    - auto.
    - destruct (_ =? _); [discriminate|]. destruct (S_ISREG _); [apply SP in H; exact H|].
      destruct (S_ISDIR _); [apply SF in H; exact H|]. injection H as _ <-; reflexivity.
    - apply SP; assumption.
    - destruct (_ =? _); [discriminate|]. destruct (negb _); [discriminate|]. apply SF; assumption.
    - destruct (_ =? _); [discriminate|]. destruct (negb _); [discriminate|]. injection H as _ <-; reflexivity.
    - destruct (_ <=? _); injection H as _ <-; reflexivity.
    - discriminate. }
  induction 1 as [d x d' o r H H1 H2 H3 IH | d d' H | d e H | d d' H | d H]; intros HI rest Hr; try discriminate.
  - destruct (SB _ _ _ _ HI H) as [u Hu]. destruct (IH (Inv_of_step _ _ _ _ HI H) _ Hr) as [v Hv].
    exists (u ++ v). rewrite Hu, Hv, app_assoc. reflexivity.
  - injection Hr as <-. eapply SB; eauto.
Qed.

Theorem drun_rest env mode d i o rest : decoder_new mode = Ok d -> drun env d i o (Finished rest) -> exists u, i = u ++ rest.
Proof.
  intros H R. assert (HI := Inv_new _ _ H).
  apply drun_erun in R; [|exact HI|rewrite (new_eof _ _ H); discriminate].
  destruct (erun_rest _ _ _ _ R (Inv_full _ i HI) rest eq_refl) as [u Hu].
  exists u. rewrite <- Hu. cbn [full d_buf]. unfold decoder_new in H. destruct (_ && _)%bool; [discriminate|].
  injection H as <-. reflexivity.
Qed.
