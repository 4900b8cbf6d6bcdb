(** All runs of a decoder over the same input agree. *)
From Verif Require Import Base FeatureFlags ArchiveBase Decoder DecoderSpec DecoderProofs DecoderProofs2 DecoderProofs3
  ReallocBufferProofs.
Local Open Scope N_scope.

Lemma Inv_of_step env d x d' : Inv d -> decoder_step env d = Ok (x, d') -> Inv d'.
Proof. intros I H. pose proof (decoder_step_good env d I) as G. rewrite H in G. exact G. Qed.

Lemma nodes_of_Inv d : Inv d -> exists n up, d_nodes d = n :: up.
Proof. intros I. assert (H := I_head _ I). unfold head_ok in H. destruct (d_nodes d); [contradiction|eauto]. Qed.

Lemma adv_id d : d_step d = 0 -> adv d = d.
Proof.
  intros H. unfold adv. rewrite H, dropN_0. destruct d as [st ff ns b eo a p s]; cbn in *. subst s.
  destruct st; try reflexivity. rewrite N.add_0_r. reflexivity.
Qed.

(** The payload state in which a PAYLOAD result originates. *)
Lemma step_node_payload env d n up d' : d_step d = 0 ->
  step_node env d n up = Ok (R_PAYLOAD, d') ->
  exists d1, d_state d1 = D_IN_PAYLOAD /\ d_step d1 = 0 /\ d_nodes d1 = d_nodes d /\ d_buf d1 = d_buf d /\
    d_eof d1 = d_eof d /\
    step_payload d1 n = Ok (R_PAYLOAD, d') /\
    forall i, step_node env (full d i) n up = step_payload (full d1 i) n.
Proof.
  intros H0. unfold step_node.
  assert (Hk : forall i, is_naked (full d i) = is_naked d) by reflexivity.
  assert (SE : step_entry env d n up = Ok (R_PAYLOAD, d') -> False).
  { unfold step_entry. destruct (parse_entry _ _ _ _) as [[| |] ?]; discriminate. }
  assert (SF : forall d, step_filename d n = Ok (R_PAYLOAD, d') -> False).
  { clear. intros d. unfold step_filename. destruct (parse_filename _); try discriminate.
    - destruct (_ <=? _); discriminate. - destruct (_ && _)%bool; discriminate. }
  destruct (d_state d) eqn:Hs; cbn [full d_state].
  - destruct (is_naked d) eqn:Hkd; [|intros H; destruct (SE H)].
    intros H. exists (enter d D_IN_PAYLOAD 0). repeat split; auto. intros i. cbn [full d_state]. rewrite ?Hs, ?Hk, ?Hkd. reflexivity.
  - intros H; destruct (SE H).
  - destruct (node_mode n =? MODE_NONE); [discriminate|].
    destruct (S_ISREG (node_mode n)); [|destruct (S_ISDIR (node_mode n)); [intros H; destruct (SF _ H)|discriminate]].
    intros H. exists (enter d D_IN_PAYLOAD 0). repeat split; auto. intros i. cbn [full d_state]. rewrite ?Hs. reflexivity.
  - intros H. exists d. repeat split; auto. intros i. cbn [full d_state]. rewrite ?Hs. reflexivity.
  - destruct (_ =? _); [discriminate|]. destruct (negb _); [discriminate|]. intros H; destruct (SF _ H).
  - destruct (_ =? _); [discriminate|]. destruct (negb _); discriminate.
  - destruct (_ <=? _); discriminate.
  - discriminate.
Qed.

Lemma step_node_full env d n up i x d' :
  d_step d = 0 -> d_nodes d = n :: up -> (d_eof d = true -> i = []) ->
  step_node env d n up = Ok (x, d') ->
  match x with
  | R_REQUEST => Inv d' -> decoder_step env (full d' i) = step_node env (full d i) n up
  | R_PAYLOAD => True
  | _ => step_node env (full d i) n up = Ok (x, full d' i)
  end.
Proof.
  intros H0 Hn He H.
  assert (He' : forall s k, d_eof (enter d s k) = true -> i = []) by (intros; apply He; assumption).
  assert (HE : forall s k, enter (full d i) s k = full (enter d s k) i) by reflexivity.
  assert (Hk : is_naked (full d i) = is_naked d) by reflexivity.
  assert (SP : forall st, (d_state st = D_IN_PAYLOAD) -> d_step st = 0 -> d_nodes st = n :: up -> (d_eof st = true -> i = []) ->
           step_payload st n = Ok (x, d') ->
           match x with
           | R_REQUEST => Inv d' -> decoder_step env (full d' i) = step_payload (full st i) n
           | R_PAYLOAD => True
           | _ => step_payload (full st i) n = Ok (x, full d' i)
           end).
  { intros st S1 S2 S3 S4 S5. pose proof (step_payload_full _ _ i _ _ S4 S2 S5) as X.
    destruct x; auto.
    subst d'. intros Hi. rewrite decoder_step_adv; [|apply Inv_full, Hi|cbn; congruence].
    cbn [full d_nodes]. rewrite S3. rewrite adv_full by apply Hi. rewrite adv_id by assumption.
    unfold step_node. cbn [full d_state]. rewrite S1. reflexivity. }
  assert (SF : forall st, d_state st = D_IN_DIRECTORY -> d_step st = 0 -> d_nodes st = n :: up -> 
           (exists x, step_node env st n up = x) ->
           step_filename st n = Ok (x, d') ->
           match x with
           | R_REQUEST => Inv d' -> decoder_step env (full d' i) = step_filename (full st i) n
           | R_PAYLOAD => True
           | _ => step_filename (full st i) n = Ok (x, full d' i)
           end).
  { intros st S1 S2 S3 S4 S5. pose proof (step_filename_full _ _ i _ _ S5) as X.
    destruct x; try contradiction; auto.
    subst d'. intros Hi. rewrite decoder_step_adv; [|apply Inv_full, Hi|cbn; congruence].
    cbn [full d_nodes]. rewrite S3. rewrite adv_full by apply Hi. rewrite adv_id by assumption.
    unfold step_node. cbn [full d_state]. rewrite S1.
    assert (Hh := I_head _ Hi). unfold head_ok in Hh. rewrite S3, S1 in Hh.
    destruct (dir_node_mode _ Hh) as [B1 B2]. apply N.eqb_neq in B1. rewrite B1, B2. reflexivity. }
  assert (SE : step_entry env d n up = Ok (x, d') -> (d_state d = D_INIT /\ is_naked d = false \/ d_state d = D_ENTERED) ->
           match x with
           | R_REQUEST => Inv d' -> decoder_step env (full d' i) = step_entry env (full d i) n up
           | R_PAYLOAD => True
           | _ => step_entry env (full d i) n up = Ok (x, full d' i)
           end).
  { intros S5 S6. pose proof (step_entry_full _ _ _ _ i _ _ Hn S5) as X.
    destruct x; try contradiction; auto.
    destruct X as (ff & n' & X1 & X2 & X2' & X3). rewrite X3. intros Hi.
    rewrite decoder_step_adv; [|apply Inv_full, Hi|subst d'; cbn; destruct S6 as [[-> _] | ->]; discriminate].
    rewrite adv_full by apply Hi.
    assert (Hs0 : d_step d' = 0) by (subst d'; exact H0).
    rewrite adv_id by assumption.
    assert (Hn' : d_nodes d' = n' :: up) by (subst d'; reflexivity).
    cbn [full d_nodes]. rewrite Hn'. unfold step_node. cbn [full d_state].
    assert (Hst : d_state d' = d_state d) by (subst d'; reflexivity). rewrite Hst.
    destruct S6 as [[S6 S7] | S6]; rewrite S6; [|reflexivity].
    assert (Hnk : is_naked (full d' i) = false).
    { unfold is_naked. cbn [full d_nodes]. rewrite Hn'. destruct up; [|reflexivity].
      rewrite X2, X2'. reflexivity. }
    rewrite Hnk. reflexivity. }
  unfold step_node in H |- *. cbn [full d_state].
  rewrite Hk.
  destruct (d_state d) eqn:Hs; rewrite ?HE.
  - destruct (is_naked d) eqn:Hkd.
    + apply SP; auto.
    + apply SE; auto.
  - apply SE; auto.
  - destruct (node_mode n =? MODE_NONE); [discriminate|].
    destruct (S_ISREG (node_mode n)); [apply SP; auto|].
    destruct (S_ISDIR (node_mode n)); [apply SF; eauto|].
    injection H as <- <-. reflexivity.
  - apply SP; auto.
  - destruct (node_mode n =? MODE_NONE); [discriminate|].
    destruct (negb (S_ISDIR (node_mode n))); [discriminate|]. apply SF; eauto.
  - destruct (node_mode n =? MODE_NONE); [discriminate|].
    destruct (negb (S_ISDIR (node_mode n))); [discriminate|]. injection H as <- <-. reflexivity.
  - cbn [full d_bound] in *; destruct (_ <=? _); injection H as <- <-; reflexivity.
  - discriminate.
Qed.

(** The run of a decoder that has everything. *)
Inductive erun (env : denv) : dec -> list obs -> outcome -> Prop :=
| erun_step d x d' o r :
    decoder_step env d = Ok (x, d') -> x <> R_FINISHED -> x <> R_REQUEST ->
    erun env d' o r -> erun env d (observe x d' ++ o) r
| erun_finished d d' : decoder_step env d = Ok (R_FINISHED, d') -> erun env d [] (Finished (d_buf d'))
| erun_failed d e : decoder_step env d = Err e -> erun env d [] (Failed e)
| erun_starved d d' : decoder_step env d = Ok (R_REQUEST, d') -> erun env d [] Starved
| erun_crashed d : (decoder_step env d = Abort \/ decoder_step env d = UB) -> erun env d [] Crashed.

Lemma erun_det env d o r : erun env d o r -> forall o' r', erun env d o' r' -> o = o' /\ r = r'.
Proof.
  induction 1 as [d x d' o r H H1 H2 H3 IH | d d' H | d e H | d d' H | d H]; intros o' r' E;
    inversion E as [? x2 d2 o2 r2 Q Q1 Q2 Q3 | ? d2 Q | ? e2 Q | ? d2 Q | ? Q]; subst;
    try congruence; try (destruct Q; congruence); try (destruct H; congruence);
    try (split; congruence).
  assert (x2 = x /\ d2 = d') as [-> ->] by (split; congruence).
  destruct (IH _ _ Q3) as [-> ->]. auto.
Qed.

(** A run depends on the next step only. *)
Lemma erun_same env d d2 o r : decoder_step env d = decoder_step env d2 -> erun env d o r -> erun env d2 o r.
Proof.
  intros E H. inversion H; subst; rewrite E in *.
  - eapply erun_step; eassumption.
  - apply erun_finished; assumption.
  - apply erun_failed; assumption.
  - eapply erun_starved; eassumption.
  - apply erun_crashed; assumption.
Qed.

Lemma observe_payload d n up : d_nodes d = n :: up -> d_state d = D_IN_PAYLOAD -> 
  node_mode n <> MODE_NONE -> (S_ISREG (node_mode n) || S_ISBLK (node_mode n))%bool = true ->
  0 < d_step d <= len (d_buf d) ->
  observe R_PAYLOAD d = map OByte (takeN (d_step d) (d_buf d)).
Proof.
  intros Hn Hs Hm Hr Hk. unfold observe, get_payload. rewrite Hn, Hs.
  apply N.eqb_neq in Hm. rewrite Hm.
  replace (negb (S_ISREG (node_mode n)) && negb (S_ISBLK (node_mode n))) with false
    by (destruct (S_ISREG (node_mode n)), (S_ISBLK (node_mode n)); cbn in *; congruence).
  replace (len (d_buf d) =? 0) with false by (symmetry; apply N.eqb_neq; lia).
  replace (d_step d =? 0) with false by (symmetry; apply N.eqb_neq; lia). cbn [orb].
  replace (len (d_buf d) <? d_step d) with false by (symmetry; apply N.ltb_ge; lia). reflexivity.
Qed.

Lemma step_payload_mode d n x : step_payload d n = Ok x ->
  node_mode n <> MODE_NONE /\ (S_ISREG (node_mode n) || S_ISBLK (node_mode n))%bool = true.
Proof.
  unfold step_payload. destruct (N.eqb_spec (node_mode n) MODE_NONE); [discriminate|].
  destruct (S_ISREG (node_mode n) || S_ISBLK (node_mode n)); [auto|discriminate].
Qed.

Lemma takeN_split {A} k m (l : list A) : k <= m -> takeN k l ++ takeN (m - k) (dropN k l) = takeN m l.
Proof.
  intros H. rewrite <- (takeN_dropN k (takeN m l)). f_equal.
  - rewrite takeN_takeN. f_equal. lia.
  - rewrite takeN_dropN_comm. f_equal. f_equal. lia.
Qed.

Lemma erun_payload env d d' i o r : Inv d -> (d_eof d = true -> i = []) -> d_state d <> D_EOF ->
  decoder_step env d = Ok (R_PAYLOAD, d') ->
  erun env (full d' i) o r -> erun env (full d i) (observe R_PAYLOAD d' ++ o) r.
Proof.
  intros HI He Hne H HE.
  assert (HI' := Inv_of_step _ _ _ _ HI H).
  destruct (nodes_of_Inv _ HI) as (n & up & Hn).
  rewrite decoder_step_adv in H by assumption. rewrite Hn in H.
  destruct (step_node_payload _ _ _ _ _ (eq_refl : d_step (adv d) = 0) H) as (d1 & A1 & A2 & A3 & A4 & A5 & A6 & A7).
  change (d_nodes (adv d)) with (d_nodes d) in A3. rewrite Hn in A3.
  assert (He1 : d_eof d1 = true -> i = []) by (rewrite A5; exact He).
  destruct (step_payload_full _ _ i _ _ He1 A2 A6) as (B1 & B2 & k & B3 & B4 & _ & B6 & B7).
  destruct (step_payload_mode _ _ _ A6) as [M1 M2].
  assert (HF : decoder_step env (full d i) =
    Ok (R_PAYLOAD, mkDec (d_state d1) (d_ff d1) (d_nodes d1) (d_buf d1 ++ i) true (d_aoff d1) (d_poff d1) k (d_bound d1))).
  { rewrite decoder_step_adv; [|apply Inv_full, HI|exact Hne]. cbn [full d_nodes]. rewrite Hn.
    rewrite adv_full by apply HI. rewrite A7. exact B3. }
  assert (HIf := Inv_of_step _ _ _ _ (Inv_full _ i HI) HF).
  set (dk := mkDec (d_state d1) (d_ff d1) (d_nodes d1) (d_buf d1 ++ i) true (d_aoff d1) (d_poff d1) k (d_bound d1)) in *.
  set (j := d_step d') in *.
  assert (Hd' : full d' i = mkDec (d_state d1) (d_ff d1) (d_nodes d1) (d_buf d1 ++ i) true (d_aoff d1) (d_poff d1) j (d_bound d1)).
  { rewrite B1. reflexivity. }
  assert (Ho' : observe R_PAYLOAD d' = map OByte (takeN j (d_buf d1 ++ i))).
  { assert (Hb : d_buf d' = d_buf d1) by (rewrite B1; reflexivity).
    rewrite (observe_payload d' n up).
    - fold j. rewrite Hb, takeN_app_le by lia. reflexivity.
    - rewrite B1. exact A3.
    - rewrite B1. exact A1.
    - assumption.
    - assumption.
    - fold j. rewrite Hb. exact B2. }
  assert (Hok : observe R_PAYLOAD dk = map OByte (takeN k (d_buf d1 ++ i))).
  { apply (observe_payload dk n up); auto. cbn. lia. }
  rewrite Ho'. rewrite Hd' in HE. clearbody j.
  destruct (N.eq_dec j k) as [E | E].
  - rewrite E in HE |- *. fold dk in HE. rewrite <- Hok.
    eapply erun_step; try exact HF; try discriminate. exact HE.
  - assert (Hlt : j < k) by lia.
    set (dj := mkDec (d_state d1) (d_ff d1) (d_nodes d1) (d_buf d1 ++ i) true (d_aoff d1) (d_poff d1) j (d_bound d1)) in *.
    assert (HIj : Inv dj). { rewrite <- Hd'. apply Inv_full, HI'. }
    set (b := dropN j (d_buf d1 ++ i)).
    assert (Hb : 0 < len b) by (unfold b; rewrite len_dropN; lia).
    assert (Hj0 : (j =? 0) = false) by (apply N.eqb_neq; lia).
    set (dm := mkDec (d_state d1) (d_ff d1) (d_nodes d1) b true (add64 (d_aoff d1) j) (d_poff d1 + j) (k - j) (d_bound d1)).
    assert (HS : decoder_step env dj = Ok (R_PAYLOAD, dm)).
    { rewrite decoder_step_adv; [|assumption|cbn; congruence].
      assert (Ha : adv dj = mkDec (d_state d1) (d_ff d1) (d_nodes d1) b true (add64 (d_aoff d1) j) (d_poff d1 + j) 0 (d_bound d1)).
      { unfold adv, dj. cbn [d_state d_ff d_nodes d_buf d_step d_eof d_aoff d_poff]. rewrite A1, Hj0. reflexivity. }
      rewrite Ha. change (d_nodes dj) with (d_nodes d1). rewrite A3.
      unfold step_node. cbn [d_state]. rewrite A1.
      rewrite (B6 Hlt) by assumption. unfold dm. f_equal. f_equal. rewrite A3. 
      f_equal; [congruence|].
      rewrite B7. unfold b. destruct (match dn_entry n with Some e => dt_size e | None => None end); rewrite len_dropN; lia. }
    clear B7. inversion HE as [? x2 d2 o2 r2 Q Q1 Q2 Q3 | ? d2 Q | ? e2 Q | ? d2 Q | ? Q]; subst;
      try congruence; try (destruct Q; congruence).
    assert (x2 = R_PAYLOAD /\ d2 = dm) as [-> ->] by (split; congruence).
    assert (Hom : observe R_PAYLOAD dm = map OByte (takeN (k - j) b)).
    { apply (observe_payload dm n up); auto. cbn. unfold b. rewrite len_dropN. lia. }
    rewrite Hom, app_assoc, <- map_app. unfold b. rewrite takeN_split by lia. rewrite <- Hok.
    eapply erun_step; try exact HF; try discriminate.
    eapply erun_same; [|exact Q3].
    assert (HIm := Inv_of_step _ _ _ _ HIj HS).
    rewrite !decoder_step_adv; try assumption; try (cbn; congruence).
    change (d_nodes dm) with (d_nodes d1). change (d_nodes dk) with (d_nodes d1). rewrite A3.
    f_equal. unfold adv, dm, dk. cbn [d_state d_ff d_nodes d_buf d_step d_eof d_aoff d_poff]. rewrite A1.
    replace (k - j =? 0) with false by (symmetry; apply N.eqb_neq; lia).
    replace (k =? 0) with false by (symmetry; apply N.eqb_neq; lia).
    unfold b. rewrite dropN_dropN. f_equal; [f_equal; lia| |lia].
    unfold add64. rewrite N.add_mod_idemp_l by discriminate. f_equal. lia.
Qed.

Lemma drun_erun env d i o r : drun env d i o r -> Inv d -> (d_eof d = true -> i = []) -> erun env (full d i) o r.
Proof.
  induction 1 as [d p i d' o r H HR IH | d o r HR IH | d i x d' o r H Hx HR IH | d i d' H | d i e H | d d' He H | d i H];
    intros HI He0.
  - unfold decoder_put_data in H. destruct (N.eqb_spec (len p) 0) as [E | E].
    + apply len_zero_nil in E. subst p. assert (d' = d) by congruence. subst d'. apply IH; assumption.
    + destruct (d_eof d) eqn:Hd; [discriminate|].
      assert (E2 : full d (p ++ i) = full d' i).
      { injection H as <-. unfold full. cbn. rewrite <- app_assoc. reflexivity. }
      rewrite E2. apply IH.
      * injection H as <-. destruct HI as [H1 H2 H3 H4 H5 H6]. constructor; cbn; auto. rewrite len_app. lia.
      * injection H as <-. cbn. congruence.
  - apply IH; [|reflexivity]. destruct HI as [H1 H2 H3 H4 H5 H6]. constructor; auto.
  - assert (HI' := Inv_of_step _ _ _ _ HI H).
    assert (Hne : d_state d <> D_EOF). { intros E. unfold decoder_step in H. rewrite E in H. congruence. }
    assert (He' : d_eof d' = d_eof d).
    { destruct (nodes_of_Inv _ HI) as (n & up & Hn).
      clear - H Hne HI Hn. rewrite decoder_step_adv, Hn in H by assumption.
      assert (Ha : d_eof (adv d) = d_eof d) by reflexivity. rewrite <- Ha. clear Ha.
      set (a := adv d) in *. clearbody a. clear HI Hne Hn d.
      assert (SP : forall st, step_payload st n = Ok (x, d') -> d_eof d' = d_eof st).
      { intros st. unfold step_payload. destruct (_ =? _); [discriminate|]. destruct (negb _); [discriminate|].
        destruct (match dn_entry n with Some e => dt_size e | None => None end).
        - destruct (_ <? _); [discriminate|]. destruct (_ =? _); [intros E; injection E as _ <-; reflexivity|].
          destruct (_ <? _); [intros E; injection E as _ <-; reflexivity|].
          destruct (d_eof st) eqn:Z; [discriminate|]. intros E; injection E as _ <-; assumption.
        - destruct (_ <? _); [intros E; injection E as _ <-; reflexivity|].
          destruct (d_eof st) eqn:Z; [|intros E; injection E as _ <-; assumption].
          destruct (negb _); [discriminate|]. destruct (is_naked st); intros E; injection E as _ <-; assumption. }
      assert (SF : forall st, step_filename st n = Ok (x, d') -> d_eof d' = d_eof st).
      { intros st. unfold step_filename. destruct (parse_filename _); [|discriminate| |].
        - intros E; injection E as _ <-; reflexivity.
        - destruct (_ <=? _); [discriminate|]. intros E; injection E as _ <-; reflexivity.
        - destruct (_ && _)%bool; [discriminate|]. intros E; injection E as _ <-; reflexivity. }
      assert (SE : step_entry env a n up = Ok (x, d') -> d_eof d' = d_eof a).
      { unfold step_entry. destruct (parse_entry _ _ _ _) as [[| |] ?]; try discriminate;
        intros E; injection E as _ <-; reflexivity. }
      unfold step_node in H. destruct (d_state a).
      - destruct (is_naked a); [apply SP in H; exact H|auto].
      - auto.
      - destruct (_ =? _); [discriminate|]. destruct (S_ISREG _); [apply SP in H; exact H|].
        destruct (S_ISDIR _); [apply SF in H; exact H|]. injection H as _ <-; reflexivity.
      - apply SP; assumption.
      - destruct (_ =? _); [discriminate|]. destruct (negb _); [discriminate|]. apply SF; assumption.
      - destruct (_ =? _); [discriminate|]. destruct (negb _); [discriminate|]. injection H as _ <-; reflexivity.
      - cbn [full d_bound] in *; destruct (_ <=? _); injection H as _ <-; reflexivity.
      - discriminate. }
    assert (HE : erun env (full d' i) o r) by (apply IH; [assumption|rewrite He'; assumption]).
    destruct (nodes_of_Inv _ HI) as (n & up & Hn).
    assert (HF : decoder_step env (full d i) = step_node env (full (adv d) i) n up).
    { rewrite decoder_step_adv; [|apply Inv_full, HI|exact Hne]. cbn [full d_nodes]. rewrite Hn.
      rewrite adv_full by apply HI. reflexivity. }
    assert (HS := H). rewrite decoder_step_adv, Hn in HS by assumption.
    assert (HX := step_node_full env (adv d) n up i x d' eq_refl Hn He0 HS).
    assert (Hobs : forall y, observe y (full d' i) = match y with R_PAYLOAD => observe y (full d' i) | _ => observe y d' end)
      by (destruct y; reflexivity).
    destruct x; try (rewrite <- HF in HX; specialize (Hobs); pose proof (Hobs R_STEP);
        match goal with |- erun _ _ (observe ?y d' ++ _) _ =>
          change (observe y d') with (observe y (full d' i)); eapply erun_step; [exact HX|discriminate|discriminate|exact HE] end).
    + (* REQUEST *) cbn [observe app]. specialize (HX HI'). rewrite <- HF in HX. eapply erun_same; eassumption.
    + eapply erun_payload; eassumption.
    + congruence.
  - assert (Hne : d_state d = D_EOF \/ d_state d <> D_EOF) by (destruct (d_state d); auto; right; discriminate).
    destruct Hne as [E | Hne].
    + assert (d' = d) by (unfold decoder_step in H; rewrite E in H; congruence). subst d'.
      change (d_buf d ++ i) with (d_buf (full d i)). apply erun_finished. unfold decoder_step. cbn. rewrite E. reflexivity.
    + destruct (nodes_of_Inv _ HI) as (n & up & Hn).
      assert (HS := H). rewrite decoder_step_adv, Hn in HS by assumption.
      assert (HX := step_node_full env (adv d) n up i _ d' eq_refl Hn He0 HS). cbn in HX.
      change (d_buf d' ++ i) with (d_buf (full d' i)). apply erun_finished.
      rewrite decoder_step_adv; [|apply Inv_full, HI|exact Hne]. cbn [full d_nodes]. rewrite Hn.
      rewrite adv_full by apply HI. exact HX.
  - assert (Hne : d_state d <> D_EOF). { intros E. unfold decoder_step in H. rewrite E in H. congruence. }
    destruct (nodes_of_Inv _ HI) as (n & up & Hn).
    apply erun_failed. rewrite decoder_step_adv, Hn in H by assumption.
    rewrite decoder_step_adv; [|apply Inv_full, HI|exact Hne]. cbn [full d_nodes]. rewrite Hn.
    rewrite adv_full by apply HI. apply step_node_err; assumption.
  - replace (full d []) with d; [eapply erun_starved; eassumption|].
    unfold full. rewrite app_nil_r. destruct d; cbn in *; subst; reflexivity.
  - pose proof (decoder_step_good env d HI) as G. destruct H as [H | H]; rewrite H in G; destruct G.
Qed.

Lemma Inv_new mode d : decoder_new mode = Ok d -> Inv d.
Proof.
  unfold decoder_new. destruct (_ && _ && _)%bool; [discriminate|]. intros H. injection H as <-.
  constructor; unfold inner; cbn; auto; try lia; [constructor|discriminate].
Qed.

Theorem drun_det env mode d i o1 r1 o2 r2 : decoder_new mode = Ok d ->
  drun env d i o1 r1 -> drun env d i o2 r2 -> o1 = o2 /\ r1 = r2.
Proof.
  intros H H1 H2. assert (I := Inv_new _ _ H).
  assert (He : d_eof d = true -> i = []).
  { unfold decoder_new in H. destruct (_ && _ && _)%bool; [discriminate|]. injection H as <-. discriminate. }
  eapply erun_det; eapply drun_erun; eauto.
Qed.
