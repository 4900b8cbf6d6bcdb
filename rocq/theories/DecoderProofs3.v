(** The decoder keeps its invariant, never crashes, and does the same however it is fed. *)
From Verif Require Import Base FeatureFlags ArchiveBase Decoder DecoderSpec DecoderProofs DecoderProofs2.
Local Open Scope N_scope.

Lemma reg_not_dir m : S_ISREG m = true -> S_ISDIR m = true -> False.
Proof. unfold S_ISREG, S_ISDIR, is_type. intros A B. apply N.eqb_eq in A, B. rewrite A in B. discriminate. Qed.

(** States as they are after [adv]. *)
Definition Inv0 d := Inv d /\ d_step d = 0.

Lemma Inv0_adv d : Inv d -> Inv0 (adv d). Proof. intros H. split; [apply Inv_adv, H|reflexivity]. Qed.

Lemma Inv_enter d s k : Inv d -> k <= len (d_buf d) -> (s = D_EOF -> k = 0) ->
  head_ok (enter d s k) -> Inv (enter d s k).
Proof. intros [H1 H2 H3 H4 H5 H6] Hk Hs Hh. constructor; cbn [enter d_step d_buf d_nodes d_state]; auto. Qed.

Lemma inner_cons (P : dnode -> Prop) n up b : P n -> Forall P (takeN (len up - b) up) -> Forall P (takeN (len (n :: up) - b) (n :: up)).
Proof.
  intros H F. rewrite len_cons. destruct (N.le_gt_cases (1 + len up) b) as [L | L].
  - replace (1 + len up - b) with 0 by lia. rewrite takeN_0. constructor.
  - replace (1 + len up - b) with (1 + (len up - b)) by lia. unfold takeN in *. rewrite N2Nat.inj_add. cbn [N.to_nat Pos.to_nat Pos.iter_op Nat.add firstn]. constructor; assumption.
Qed.
Lemma inner_uncons (P : dnode -> Prop) n up b : Forall P (takeN (len (n :: up) - b) (n :: up)) -> b < len (n :: up) -> P n /\ Forall P (takeN (len up - b) up).
Proof.
  intros F L. rewrite len_cons in *. replace (1 + len up - b) with (1 + (len up - b)) in F by lia. unfold takeN in *. rewrite N2Nat.inj_add in F.
  cbn [N.to_nat Pos.to_nat Pos.iter_op Nat.add firstn] in F. inversion F; subst. auto.
Qed.

Definition good (x : res (dret * dec)) : Prop :=
  match x with Ok (_, d) => Inv d | Err _ => True | Abort | UB => False end.

Lemma step_payload_good d n up : Inv0 d -> d_state d = D_IN_PAYLOAD -> d_nodes d = n :: up -> good (step_payload d n).
Proof.
  intros [I H0] Hs Hn. assert (Hh := I_head _ I). unfold head_ok in Hh. rewrite Hn, Hs in Hh.
  unfold step_payload.
  destruct Hh as [Hk | (e & s & A1 & A2 & A3 & A4 & A5 & A6)].
  - destruct (is_naked_single _ Hk) as [n' Hn']. assert (n' = n /\ up = []) as [-> ->] by (rewrite Hn in Hn'; split; congruence).
    destruct (is_naked_node _ _ Hn' Hk) as [B1 B2].
    unfold node_mode. rewrite B1.
    destruct (N.eqb_spec (dn_mode n) MODE_NONE) as [E | E]; [exact Logic.I|].
    rewrite B2. cbn [negb].
    destruct (N.ltb_spec 0 (len (d_buf d))) as [L | L].
    + cbn [good]. destruct I as [H1 H2 H3 H4 H5 H6].
      constructor; cbn [d_step d_buf d_nodes d_state]; auto; [lia| |congruence].
      unfold head_ok. cbn [d_nodes d_state]. rewrite Hn, Hs. left. unfold is_naked in *. rewrite Hn in Hk. exact Hk.
    + destruct (d_eof d); [|exact I].
      destruct (at_root d); cbn [negb]; [|exact Logic.I]. rewrite Hk. cbn [good].
      apply Inv_enter; auto; try lia; try discriminate. unfold head_ok. cbn. rewrite Hn. exact Logic.I.
  - unfold node_mode. rewrite A1, A4.
    destruct (N.eqb_spec (m_mode (dt_meta e)) MODE_NONE) as [E | E]; [exact Logic.I|].
    rewrite A2. cbn [orb negb].
    destruct (N.ltb_spec s (d_poff d)) as [L | L]; [lia|].
    destruct (N.eqb_spec (d_poff d) s) as [L2 | L2].
    { apply Inv_enter; auto; try lia; try discriminate. unfold head_ok. cbn. rewrite Hn. exact Logic.I. }
    destruct (N.ltb_spec 0 (len (d_buf d))) as [L3 | L3].
    + cbn [good]. destruct I as [H1 H2 H3 H4 H5 H6].
      constructor; cbn [d_step d_buf d_nodes d_state]; auto; [lia| |congruence].
      unfold head_ok. cbn [d_nodes d_state d_poff d_step]. rewrite Hn, Hs. right. exists e, s. repeat split; auto. lia.
    + destruct (d_eof d); [exact Logic.I|exact I].
Qed.

Lemma step_entry_good env d n up : Inv0 d -> d_nodes d = n :: up -> (d_state d = D_INIT \/ d_state d = D_ENTERED) ->
  good (step_entry env d n up).
Proof.
  intros [I H0] Hn Hs. unfold step_entry.
  assert (Hr : at_root d = is_nil up).
  { unfold at_root. rewrite Hn, len_cons. destruct up; [reflexivity|]. rewrite len_cons. cbn [is_nil].
    apply N.eqb_neq. lia. }
  destruct (parse_entry env (at_root d) (d_ff d) (d_buf d)) as [[|e|e off] ff'] eqn:E; cbn [good]; [|exact Logic.I|].
  - destruct I as [H1 H2 H3 H4 H5 H6].
    assert (Hr' : forall l : list dnode, removelast (n :: l) = match l with [] => [] | _ => n :: removelast l end) by (destruct l; reflexivity).
    unfold inner in H2. constructor; unfold inner; cbn [set_nodes set_ff d_step d_buf d_nodes d_state d_bound tl] in *; rewrite ?Hn in *; auto.
    + unfold head_ok in *. cbn [set_nodes set_ff d_nodes d_state]. rewrite Hn in H3.
      destruct Hs as [Hs | Hs]; rewrite Hs in *; cbn; tauto.
    + destruct up; cbn [removelast] in *; auto. inversion H4; subst. constructor; auto.
  - apply parse_entry_ok in E. destruct E as (E1 & E2 & E3).
    destruct I as [H1 H2 H3 H4 H5 H6].
    unfold inner in H2. constructor; unfold inner; cbn [set_nodes set_ff enter d_step d_buf d_nodes d_state d_bound tl] in *; rewrite ?Hn in *; auto.
    + unfold head_ok. cbn [set_nodes set_ff enter d_nodes d_state dn_entry]. exists e. rewrite <- Hr. auto.
    + destruct up; cbn [removelast] in *; auto. inversion H4; subst. constructor; auto.
    + discriminate.
Qed.

Lemma step_filename_good d n up : Inv0 d -> d_nodes d = n :: up -> d_state d = D_IN_DIRECTORY -> good (step_filename d n).
Proof.
  intros [I H0] Hn Hs. unfold step_filename.
  destruct (parse_filename (d_buf d)) as [|e|name l|o l] eqn:E; cbn [good]; auto.
  - destruct (N.leb_spec NODES_MAX (len (d_nodes d))) as [L | L]; [exact Logic.I|]. cbn [good].
    apply parse_filename_name in E. destruct E as [E1 E2].
    destruct I as [H1 H2 H3 H4 H5 H6]. unfold head_ok in H3. rewrite Hn, Hs in H3.
    unfold inner in H2. constructor; unfold inner; cbn [set_nodes enter d_step d_buf d_nodes d_state d_bound tl]; try lia.
    + rewrite Hn in H2 |- *. cbn [tl] in H2. apply inner_cons; assumption.
    + unfold head_ok. cbn. exact Logic.I.
    + rewrite Hn in H4 |- *. cbn [removelast] in *. destruct up; constructor; auto.
    + rewrite len_cons. lia.
    + discriminate.
  - destruct (_ && _)%bool; [exact Logic.I|]. cbn [good].
    apply parse_filename_goodbye in E. destruct E as [E1 E2].
    apply Inv_enter; auto; try lia; try discriminate.
    unfold head_ok. cbn. rewrite Hn. assert (Hh := I_head _ I). unfold head_ok in Hh. rewrite Hn, Hs in Hh. exact Hh.
Qed.

Lemma dir_node_mode n : dir_node n -> node_mode n <> MODE_NONE /\ S_ISDIR (node_mode n) = true.
Proof. intros (e & A & B & C). unfold node_mode. rewrite A. auto. Qed.

Lemma step_node_good env d n up : Inv0 d -> d_nodes d = n :: up -> d_state d <> D_EOF -> good (step_node env d n up).
Proof.
  intros HI0 Hn Hne. assert (HI := proj1 HI0). assert (H0 := proj2 HI0).
  assert (Hh := I_head _ HI). unfold head_ok in Hh. rewrite Hn in Hh.
  unfold step_node. destruct (d_state d) eqn:Hs.
  - destruct Hh as [-> Hh]. destruct (is_naked d) eqn:Hk.
    + assert (Inv0 (enter d D_IN_PAYLOAD 0)).
      { split; [|reflexivity]. apply Inv_enter; auto; try lia; try discriminate. unfold head_ok. cbn. rewrite Hn. left. unfold is_naked in *. rewrite Hn in Hk. cbn. rewrite Hn. exact Hk. }
      eapply step_payload_good; eauto.
    + apply step_entry_good; auto.
  - apply step_entry_good; auto.
  - destruct Hh as (e & A1 & A2 & A3 & A4). unfold node_mode. rewrite A1.
    destruct (N.eqb_spec (m_mode (dt_meta e)) MODE_NONE); [exact Logic.I|].
    destruct (S_ISREG (m_mode (dt_meta e))) eqn:Hr.
    + destruct (dt_size e) as [s|] eqn:Hsz; [|exfalso; apply A3; auto].
      eapply step_payload_good; [|reflexivity|cbn; exact Hn].
      split; [|reflexivity]. apply Inv_enter; auto; try lia; try discriminate.
      unfold head_ok. cbn. rewrite Hn. right. exists e, s. repeat split; auto; [lia|].
      intros ->. exact (reg_not_dir _ Hr (A4 eq_refl)).
    + destruct (S_ISDIR (m_mode (dt_meta e))) eqn:Hd.
      * eapply step_filename_good; [|cbn; exact Hn|reflexivity].
        split; [|reflexivity]. apply Inv_enter; auto; try lia; try discriminate.
        unfold head_ok. cbn. rewrite Hn. exists e. auto.
      * cbn [good]. apply Inv_enter; auto; try lia; try discriminate. unfold head_ok. cbn. rewrite Hn. exact Logic.I.
  - eapply step_payload_good; eauto.
  - destruct (dir_node_mode _ Hh) as [B1 B2]. apply N.eqb_neq in B1. rewrite B1, B2. cbn [negb].
    eapply step_filename_good; eauto.
  - destruct (dir_node_mode _ Hh) as [B1 B2]. apply N.eqb_neq in B1. rewrite B1, B2. cbn [negb good].
    apply Inv_enter; auto; try lia; try discriminate. unfold head_ok. cbn. rewrite Hn. exact Logic.I.
  - destruct (N.leb_spec (len up) (d_bound d)) as [Lb | Lb]; [|destruct up as [|n' up]; [change (@len dnode []) with 0 in Lb; lia|]].
    + cbn [good]. apply Inv_enter; auto; try lia; try discriminate. unfold head_ok. cbn. rewrite Hn. exact Logic.I.
    + cbn [good]. destruct HI as [H1 H2 H3 H4 H5 H6].
      unfold inner in H2. rewrite Hn in *. cbn [tl] in H2. apply inner_uncons in H2; [|exact Lb]. destruct H2 as [H7 H8].
      constructor; unfold inner; cbn [set_nodes enter d_step d_buf d_nodes d_state d_bound tl]; auto; try lia.
      * cbn [removelast] in H4. inversion H4; subst. assumption.
      * rewrite len_cons in H5. lia.
  - congruence.
Qed.

Lemma decoder_step_good env d : Inv d -> good (decoder_step env d).
Proof.
  intros I. assert (He : d_state d = D_EOF \/ d_state d <> D_EOF) by (destruct (d_state d); auto; right; discriminate).
  destruct He as [He | He].
  - unfold decoder_step. rewrite He. exact I.
  - rewrite decoder_step_adv by assumption. destruct (d_nodes d) as [|n up] eqn:Hn; [exact Logic.I|].
    apply step_node_good; auto. apply Inv0_adv, I.
Qed.

(** ** Feeding doesn't matter *)

Lemma step_payload_full d n i x d' :
  (d_eof d = true -> i = []) -> d_step d = 0 ->
  step_payload d n = Ok (x, d') ->
  match x with
  | R_REQUEST => d' = d
  | R_PAYLOAD =>
      d' = mkDec (d_state d) (d_ff d) (d_nodes d) (d_buf d) (d_eof d) (d_aoff d) (d_poff d) (d_step d') (d_bound d) /\
      0 < d_step d' <= len (d_buf d) /\
      exists k, step_payload (full d i) n =
        Ok (R_PAYLOAD, mkDec (d_state d) (d_ff d) (d_nodes d) (d_buf d ++ i) true (d_aoff d) (d_poff d) k (d_bound d)) /\
        d_step d' <= k <= len (d_buf d ++ i) /\
        (forall e s, dn_entry n = Some e -> dt_size e = Some s -> k <= s - d_poff d) /\
        (d_step d' < k -> forall st ff ns b eo a bd, 0 < len b ->
           step_payload (mkDec st ff ns b eo a (d_poff d + d_step d') 0 bd) n =
           Ok (R_PAYLOAD, mkDec st ff ns b eo a (d_poff d + d_step d') 
              (match (match dn_entry n with Some e => dt_size e | None => None end) with
               | None => len b | Some s => N.min (len b) (s - (d_poff d + d_step d')) end) bd)) /\
        k = match (match dn_entry n with Some e => dt_size e | None => None end) with
               | None => len (d_buf d ++ i) | Some s => N.min (len (d_buf d ++ i)) (s - d_poff d) end
  | _ => step_payload (full d i) n = Ok (x, full d' i)
  end.
Proof.
  intros He H0. unfold step_payload.
  destruct (node_mode n =? MODE_NONE); [discriminate|].
  destruct (negb (S_ISREG (node_mode n) || S_ISBLK (node_mode n))) eqn:Hm; [discriminate|].
  set (size := match dn_entry n with Some e => dt_size e | None => None end).
  assert (Hsz : forall e s, dn_entry n = Some e -> dt_size e = Some s -> size = Some s).
  { intros e s A B. unfold size. rewrite A. exact B. }
  clearbody size. cbn [full d_poff d_buf d_eof].
  destruct (match size with Some s => s <? d_poff d | None => false end) eqn:Lt; [discriminate|].
  destruct (match size with Some s => d_poff d =? s | None => false end) eqn:Eq.
  { intros E. injection E as <- <-. unfold full, enter. cbn. reflexivity. }
  rewrite len_app.
  destruct (N.ltb_spec 0 (len (d_buf d))) as [L | L].
  - replace (0 <? len (d_buf d) + len i) with true by (symmetry; apply N.ltb_lt; lia).
    intros E. injection E as <- <-. cbn [d_step].
    destruct size as [s|].
    + apply N.ltb_ge in Lt. apply N.eqb_neq in Eq.
      split; [reflexivity|]. split; [lia|].
      eexists. split; [reflexivity|]. split; [lia|].
      split; [|split; [|reflexivity]].
      * intros e s' A B. specialize (Hsz _ _ A B). injection Hsz as <-. lia.
      * intros Hlt st ff ns b eo a bd Hb. cbn [d_poff d_buf].
        replace (s <? d_poff d + N.min (len (d_buf d)) (s - d_poff d)) with false by (symmetry; apply N.ltb_ge; lia).
        replace (d_poff d + N.min (len (d_buf d)) (s - d_poff d) =? s) with false by (symmetry; apply N.eqb_neq; lia).
        replace (0 <? len b) with true by (symmetry; apply N.ltb_lt; lia). reflexivity.
    + split; [reflexivity|]. split; [lia|].
      eexists. split; [reflexivity|]. split; [lia|].
      split; [|split; [|reflexivity]].
      * intros e s' A B. specialize (Hsz _ _ A B). discriminate.
      * intros Hlt st ff ns b eo a bd Hb. cbn [d_poff d_buf].
        replace (0 <? len b) with true by (symmetry; apply N.ltb_lt; lia). reflexivity.
  - destruct (d_eof d) eqn:Hd.
    + assert (Hi : i = []) by auto. subst i. change (@len N []) with 0. rewrite N.add_0_r.
      replace (0 <? len (d_buf d)) with false by (symmetry; apply N.ltb_ge; lia).
      destruct size; [discriminate|].
      assert (Hr : at_root (full d []) = at_root d) by reflexivity. rewrite Hr.
      destruct (negb (at_root d)); [discriminate|].
      assert (Hk : is_naked (full d []) = is_naked d) by reflexivity. rewrite Hk.
      destruct (is_naked d); intros E; injection E as <- <-; reflexivity.
    + intros E. injection E as <- <-. reflexivity.
Qed.

Lemma step_entry_full env d n up i x d' :
  d_nodes d = n :: up ->
  step_entry env d n up = Ok (x, d') ->
  match x with
  | R_REQUEST => exists ff n', d' = set_nodes (set_ff d ff) (n' :: up) /\
      dn_entry n' = None /\ dn_mode n' = MODE_NONE /\
      step_entry env (full d i) n up = step_entry env (full d' i) n' up
  | R_NEXT_FILE => step_entry env (full d i) n up = Ok (x, full d' i)
  | _ => False
  end.
Proof.
  intros Hn. unfold step_entry.
  assert (Hr : forall e, at_root e = (len (d_nodes e) =? 1)) by reflexivity. rewrite !Hr.
  cbn [full d_ff d_buf d_nodes]. rewrite Hn, !len_cons.
  destruct (parse_entry env (1 + len up =? 1) (d_ff d) (d_buf d)) as [[|e|e off] ff'] eqn:E; [|discriminate|].
  - intros H. injection H as <- <-. eexists _, _. split; [reflexivity|].
    split; [reflexivity|]. split; [reflexivity|].
    cbn [set_nodes set_ff full d_ff d_buf d_nodes dn_name dn_entry_offset]. rewrite len_cons.
    rewrite (parse_entry_req _ _ _ _ i _ E).
    destruct (parse_entry env (1 + len up =? 1) ff' (d_buf d ++ i)) as [[|e|e off] ff2]; reflexivity.
  - intros H. injection H as <- <-. rewrite (parse_entry_ext _ _ _ _ i _ _ E) by discriminate. reflexivity.
Qed.

Lemma step_filename_full d n i x d' :
  step_filename d n = Ok (x, d') ->
  match x with
  | R_REQUEST => d' = d
  | R_STEP => step_filename (full d i) n = Ok (x, full d' i)
  | _ => False
  end.
Proof.
  unfold step_filename. cbn [full d_buf d_nodes d_aoff].
  pose proof (parse_filename_ext (d_buf d) i) as X.
  destruct (parse_filename (d_buf d)) as [|e|name l|o l] eqn:E.
  - intros H. injection H as <- <-. reflexivity.
  - discriminate.
  - rewrite X by discriminate. destruct (NODES_MAX <=? len (d_nodes d)); [discriminate|].
    intros H. injection H as <- <-. reflexivity.
  - rewrite X by discriminate. destruct (_ && _)%bool; [discriminate|].
    intros H. injection H as <- <-. reflexivity.
Qed.

(** Errors are final. *)
Lemma step_payload_err d n i e : (d_eof d = true -> i = []) ->
  step_payload d n = Err e -> step_payload (full d i) n = Err e.
Proof.
  intros He. unfold step_payload.
  destruct (node_mode n =? MODE_NONE); [auto|].
  destruct (negb (S_ISREG (node_mode n) || S_ISBLK (node_mode n))); [discriminate|].
  set (size := match dn_entry n with Some e => dt_size e | None => None end). clearbody size.
  cbn [full d_poff d_buf d_eof].
  destruct (match size with Some s => s <? d_poff d | None => false end); [discriminate|].
  destruct (match size with Some s => d_poff d =? s | None => false end); [discriminate|].
  destruct (0 <? len (d_buf d)) eqn:L; [discriminate|].
  destruct (d_eof d) eqn:Hd; [|discriminate].
  rewrite (He eq_refl), app_nil_r, L.
  assert (Hr : at_root (full d []) = at_root d) by reflexivity. rewrite Hr.
  assert (Hk : is_naked (full d []) = is_naked d) by reflexivity. rewrite Hk.
  destruct size; [auto|]. destruct (negb (at_root d)); [auto|]. destruct (is_naked d); discriminate.
Qed.

Lemma step_node_err env d n up i e : (d_eof d = true -> i = []) ->
  step_node env d n up = Err e -> step_node env (full d i) n up = Err e.
Proof.
  intros He.
  assert (He' : forall s k, d_eof (enter d s k) = true -> i = []) by (intros; apply He; assumption).
  assert (SE : step_entry env d n up = Err e -> step_entry env (full d i) n up = Err e).
  { unfold step_entry. cbn [full d_ff d_buf].
    assert (Hr : at_root (full d i) = at_root d) by reflexivity. rewrite Hr.
    destruct (parse_entry env (at_root d) (d_ff d) (d_buf d)) as [[|e1|e1 off] ff'] eqn:E; [discriminate| |discriminate].
    rewrite (parse_entry_ext _ _ _ _ i _ _ E) by discriminate. auto. }
  assert (SF : forall d, step_filename d n = Err e -> step_filename (full d i) n = Err e).
  { clear. intros d. unfold step_filename. cbn [full d_buf d_nodes d_aoff].
    pose proof (parse_filename_ext (d_buf d) i) as X.
    destruct (parse_filename (d_buf d)) as [|e1|name l|o l] eqn:E; [discriminate| | |]; rewrite X by discriminate; auto.
    - destruct (NODES_MAX <=? len (d_nodes d)); [auto|discriminate].
    - destruct (_ && _)%bool; [auto|discriminate]. }
  assert (HE : forall s k, enter (full d i) s k = full (enter d s k) i) by reflexivity.
  assert (HE2 : (forall s k, d_eof (enter d s k) = d_eof d)) by reflexivity.
  unfold step_node. cbn [full d_state].
  assert (Hk : is_naked (full d i) = is_naked d) by reflexivity. rewrite Hk.
  destruct (d_state d); rewrite ?HE.
  - destruct (is_naked d); [apply step_payload_err; apply He'|apply SE].
  - apply SE.
  - destruct (node_mode n =? MODE_NONE); [auto|].
    destruct (S_ISREG (node_mode n)); [apply step_payload_err; apply He'|].
    destruct (S_ISDIR (node_mode n)); [apply SF|discriminate].
  - apply step_payload_err; assumption.
  - destruct (node_mode n =? MODE_NONE); [auto|]. destruct (negb _); [discriminate|apply SF].
  - destruct (node_mode n =? MODE_NONE); [auto|]. destruct (negb _); [discriminate|discriminate].
  - destruct (_ <=? _); discriminate.
  - discriminate.
Qed.
