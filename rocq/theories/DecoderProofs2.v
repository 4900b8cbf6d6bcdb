(** The invariant of the decoder. *)
From Verif Require Import Base FeatureFlags ArchiveBase Decoder DecoderSpec DecoderProofs.
Local Open Scope N_scope.

(** ** What a successful parse guarantees *)

Definition entry_ok (root : bool) (e : dentry) : Prop :=
  m_mode (dt_meta e) <> MODE_NONE /\
  (S_ISREG (m_mode (dt_meta e)) = true -> dt_size e <> None) /\
  (root = true -> S_ISDIR (m_mode (dt_meta e)) = true).

Lemma validate_format_entry_mode env ff p e ff' :
  validate_format_entry env ff p = (Some e, ff') -> pe_mode e <> MODE_NONE.
Proof.
  unfold validate_format_entry. destruct (validate_feature_flags env ff _) as [[|] ff1]; cbn [negb]; [|discriminate].
  destruct (validate_mode ff1 _ _) eqn:V; cbn [negb]; [|discriminate].
  intros H.
  assert (E : pe_mode e = fld 24 p).
  { revert H. repeat match goal with |- (if ?c then _ else _) = _ -> _ => destruct c end; intros H; try discriminate.
    injection H as <- _. reflexivity. }
  rewrite E. intros E2. cbn [pe_mode] in V. rewrite E2 in V. unfold validate_mode in V.
  replace (negb (N.ldiff MODE_NONE (N.lor S_IFMT 4095) =? 0)) with true in V by reflexivity. discriminate.
Qed.

Lemma parse_loop_ok n : forall env ar ff a p off e o ff',
  parse_loop n env ar ff a p off = (ROk e o, ff') ->
  (forall e, pa_entry a = Some e -> pe_mode e <> MODE_NONE /\ ENTRY_SIZE <= off) ->
  entry_ok ar e /\ o <= off + len p /\ ENTRY_SIZE <= o.
Proof.
  induction n as [|n IH]; intros env ar ff a p off e o ff' H Ha; cbn [parse_loop] in H; [discriminate|].
  pose proof (parse_obj_inv env ff a p) as I.
  destruct (parse_obj env ff a p) as [[|e'|a' l|a' c w] ff1] eqn:E; cbn [obj_result] in I; try discriminate.
  - destruct I as [[I1 I2] I].
    assert (Hoff : forall e, pa_entry a' = Some e -> pe_mode e <> MODE_NONE /\ ENTRY_SIZE <= off + l).
    { intros e1 He1. destruct I as [(J0 & J1 & _ & _ & e2 & J2 & J3 & _) | (J1 & J2 & _)].
      - assert (e2 = e1) by congruence. subst e2. split; [eapply validate_format_entry_mode; eassumption|lia].
      - destruct (Ha e1 ltac:(congruence)) as [Q1 Q2]. split; [assumption|lia]. }
    apply IH in H; [|assumption].
    rewrite len_dropN in H. destruct H as (H1 & H2 & H3). repeat split; try apply H1. lia. assumption.
  - destruct I as (-> & I1 & -> & I2 & I3).
    destruct (pa_entry a) as [en|] eqn:Ea; [|congruence].
    destruct (parse_checks ar ff a en w) eqn:Ec; [|discriminate].
    assert (e = parse_dentry a en w) by congruence. assert (o = off + c) by congruence. subst e o.
    destruct (Ha en eq_refl) as [Hm Ho].
    unfold parse_dentry, opt_or.
    assert (Hmode : m_mode (dt_meta (parse_dentry a en w)) = pe_mode en).
    { unfold parse_dentry, opt_or. destruct (pa_acl_default a) as [[[[? ?] ?] ?]|]; reflexivity. }
    assert (Hsize : dt_size (parse_dentry a en w) = match w with PPayload s => Some s | _ => None end).
    { unfold parse_dentry, opt_or. destruct (pa_acl_default a) as [[[[? ?] ?] ?]|]; reflexivity. }
    fold (opt_or (pa_acl_default a) (UINT64_MAX, UINT64_MAX, UINT64_MAX, UINT64_MAX)).
    change (entry_ok ar (parse_dentry a en w) /\ off + c <= off + len p /\ ENTRY_SIZE <= off + c).
    split; [|lia]. unfold entry_ok. rewrite Hmode, Hsize.
    split; [assumption|]. unfold parse_checks in Ec.
    split.
    + intros Hr. rewrite Hr in Ec.
      destruct w; try discriminate; exfalso; revert Ec; cbn [negb andb];
        repeat match goal with |- (if ?c then false else _) = true -> _ => destruct c; [discriminate|] end; discriminate.
    + intros ->. destruct (S_ISDIR (pe_mode en)); [reflexivity|]. exfalso.
      revert Ec. cbn [negb andb].
      repeat match goal with |- (if ?c then false else _) = true -> _ => destruct c; [discriminate|] end; discriminate.
Qed.

Lemma parse_entry_ok env ar ff p e o ff' :
  parse_entry env ar ff p = (ROk e o, ff') -> entry_ok ar e /\ o <= len p /\ ENTRY_SIZE <= o.
Proof. unfold parse_entry. intros H. apply parse_loop_ok in H; [exact H|]. discriminate. Qed.

Lemma forallb_In {A} (f : A -> bool) l x : forallb f l = true -> In x l -> f x = true.
Proof. intros H. rewrite forallb_forall in H. apply H. Qed.

Lemma validate_filename_component s : validate_filename s = true -> is_component (removelast s).
Proof.
  unfold validate_filename.
  destruct (N.ltb_spec (len s) 2) as [H | H]; [discriminate|].
  destruct (last s 1 =? 0); cbn [negb]; [|discriminate].
  destruct (forallb _ (removelast s)) eqn:F; cbn [negb]; [|discriminate].
  unfold dot_or_dot_dot. destruct (beq (removelast s) [46]) eqn:B1; [discriminate|].
  destruct (beq (removelast s) [46; 46]) eqn:B2; [discriminate|]. intros _.
  apply beq_neq in B1, B2.
  assert (Hl : length (removelast s) = pred (length s)).
  { clear. induction s as [|x [|y s] IH]; [reflexivity|reflexivity|].
    change (removelast (x :: y :: s)) with (x :: removelast (y :: s)). cbn [length] in *. rewrite IH. reflexivity. }
  repeat split; try assumption.
  - intros E. rewrite E in Hl. cbn in Hl. unfold len in H. lia.
  - intros Hin. apply (forallb_In _ _ _ F) in Hin. discriminate.
  - intros Hin. apply (forallb_In _ _ _ F) in Hin. discriminate.
Qed.

Lemma parse_filename_name p name l : parse_filename p = FName name l ->
  is_component name /\ HDR < l <= len p.
Proof.
  unfold parse_filename.
  destruct (len p <? HDR); [discriminate|]. destruct (fld 0 p <? HDR); [discriminate|].
  destruct (fld 0 p =? UINT64_MAX); [discriminate|].
  destruct (fld 8 p =? F_FILENAME).
  - destruct (N.ltb_spec (fld 0 p) (HDR + 1)) as [H1 | H1]; [discriminate|].
    destruct (N.leb_spec (fld 0 p) (len p)) as [Hc | Hc]; [|discriminate]. cbn [negb].
    unfold validate_format_filename. destruct (fld 0 p <? HDR + 1); [discriminate|].
    destruct (validate_filename _) eqn:V; [|discriminate]. cbn [negb].
    intros E. assert (name = removelast (body HDR (fld 0 p) p)) by congruence.
    assert (l = fld 0 p) by congruence. subst. split; [apply validate_filename_component; assumption|lia].
  - destruct (fld 8 p =? F_GOODBYE); [|discriminate].
    destruct (fld 0 p <? HDR + GOODBYE_TAIL); [discriminate|].
    destruct (fld 0 p <=? len p); [|discriminate]. cbn [negb].
    destruct (validate_format_goodbye _ _); discriminate.
Qed.

Lemma parse_filename_goodbye p o l : parse_filename p = FGoodbye o l -> HDR < l <= len p /\ l <= o.
Proof.
  unfold parse_filename.
  destruct (len p <? HDR); [discriminate|]. destruct (fld 0 p <? HDR); [discriminate|].
  destruct (fld 0 p =? UINT64_MAX); [discriminate|].
  destruct (fld 8 p =? F_FILENAME).
  - destruct (fld 0 p <? HDR + 1); [discriminate|].
    destruct (fld 0 p <=? len p); [|discriminate]. cbn [negb].
    destruct (validate_format_filename _ _); discriminate.
  - destruct (fld 8 p =? F_GOODBYE); [|discriminate].
    destruct (N.ltb_spec (fld 0 p) (HDR + GOODBYE_TAIL)) as [H1 | H1]; [discriminate|].
    destruct (N.leb_spec (fld 0 p) (len p)) as [Hc | Hc]; [|discriminate]. cbn [negb].
    unfold validate_format_goodbye.
    destruct (fld 0 p <? HDR + GOODBYE_TAIL); [discriminate|].
    destruct (negb (_ =? 0)); [discriminate|]. destruct (negb (_ =? F_GOODBYE_TAIL_MARKER)); [discriminate|].
    destruct (negb _); [discriminate|]. destruct (N.ltb_spec (fld (fld 0 p - GOODBYE_TAIL) p) (fld 0 p)); [discriminate|].
    destruct (_ =? UINT64_MAX); [discriminate|].
    intros E. assert (l = fld 0 p) by congruence. assert (o = fld (fld 0 p - GOODBYE_TAIL) p) by congruence. subst l o.
    unfold GOODBYE_TAIL in H1. lia.
Qed.

(** ** The invariant *)

Definition dir_node (n : dnode) : Prop :=
  exists e, dn_entry n = Some e /\ S_ISDIR (m_mode (dt_meta e)) = true /\ m_mode (dt_meta e) <> MODE_NONE.

Definition is_nil {A} (l : list A) : bool := match l with [] => true | _ => false end.

Definition head_ok (d : dec) : Prop :=
  match d_nodes d with
  | [] => False
  | n :: up =>
      match d_state d with
      | D_INIT => up = [] /\ dn_entry n = None
      | D_ENTERED => True
      | D_ENTRY => exists e, dn_entry n = Some e /\ entry_ok (is_nil up) e
      | D_IN_PAYLOAD =>
          is_naked d = true \/
          exists e s, dn_entry n = Some e /\ S_ISREG (m_mode (dt_meta e)) = true /\ m_mode (dt_meta e) <> MODE_NONE /\
            dt_size e = Some s /\ d_poff d + d_step d <= s /\ up <> []
      | D_IN_DIRECTORY | D_GOODBYE => dir_node n
      | D_FINALIZE | D_EOF => True
      end
  end.

(** The directories decoding can come back to: not those above the boundary. *)
Definition inner (d : dec) : list dnode := takeN (len (tl (d_nodes d)) - d_bound d) (tl (d_nodes d)).

Record Inv (d : dec) : Prop := mkInv {
  I_step : d_step d <= len (d_buf d);
  I_up : Forall dir_node (inner d);
  I_head : head_ok d;
  I_names : Forall (fun n => is_component (dn_name n)) (removelast (d_nodes d));
  I_depth : len (d_nodes d) <= NODES_MAX;
  I_eof : d_state d = D_EOF -> d_step d = 0
}.

Definition adv (d : dec) : dec :=
  mkDec (d_state d) (d_ff d) (d_nodes d) (dropN (d_step d) (d_buf d)) (d_eof d)
    (if d_step d =? 0 then d_aoff d else add64 (d_aoff d) (d_step d))
    (match d_state d with D_IN_PAYLOAD => d_poff d + d_step d | _ => d_poff d end) 0 (d_bound d).

Lemma advance_ok d : d_step d <= len (d_buf d) -> advance_buffer d = Ok (adv d).
Proof.
  intros H. unfold advance_buffer, adv. destruct (N.eqb_spec (d_step d) 0) as [E | E].
  - rewrite E, dropN_0. destruct d as [st ff ns b eo a p s]; cbn in *. subst s. f_equal. f_equal.
    destruct st; try reflexivity. lia.
  - destruct (N.ltb_spec (len (d_buf d)) (d_step d)); [lia|reflexivity].
Qed.

Lemma reg_not_none m : (S_ISREG m || S_ISBLK m)%bool = true -> m <> MODE_NONE.
Proof. intros H ->. discriminate. Qed.

Lemma is_naked_adv d : is_naked (adv d) = is_naked d. Proof. reflexivity. Qed.
Lemma is_naked_node d n : d_nodes d = [n] -> is_naked d = true ->
  dn_entry n = None /\ (S_ISREG (dn_mode n) || S_ISBLK (dn_mode n))%bool = true.
Proof. unfold is_naked. intros ->. destruct (dn_entry n); [discriminate|]. cbn [some negb andb]. auto. Qed.
Lemma is_naked_single d : is_naked d = true -> exists n, d_nodes d = [n].
Proof. unfold is_naked. destruct (d_nodes d) as [|n [|]]; try discriminate. eauto. Qed.

Lemma Inv_adv d : Inv d -> Inv (adv d).
Proof.
  intros [H1 H2 H3 H4 H5 H6]. constructor; cbn [adv d_step d_buf d_nodes d_state]; auto; [lia|].
  unfold head_ok in *. cbn [adv d_nodes d_state d_poff d_step]. rewrite is_naked_adv.
  destruct (d_nodes d) as [|n up]; [assumption|]. destruct (d_state d); try assumption.
  destruct H3 as [H3 | (e & s & A1 & A2 & A3 & A4 & A5 & A6)]; [left; assumption|right; exists e, s; repeat split; auto; lia].
Qed.

Lemma decoder_step_adv env d : Inv d -> d_state d <> D_EOF ->
  decoder_step env d = match d_nodes d with [] => Err EUNATCH | n :: up => step_node env (adv d) n up end.
Proof.
  intros I He. unfold decoder_step. rewrite advance_ok by apply I. cbn [bind].
  destruct (d_state d) eqn:Es; try congruence; destruct (d_nodes d) eqn:En; cbn [adv d_nodes]; rewrite ?En; reflexivity.
Qed.

(** Same buffer with more behind it, and the end of file announced. *)
Definition full (d : dec) (i : list N) : dec :=
  mkDec (d_state d) (d_ff d) (d_nodes d) (d_buf d ++ i) true (d_aoff d) (d_poff d) (d_step d) (d_bound d).

Lemma Inv_full d i : Inv d -> Inv (full d i).
Proof.
  intros [H1 H2 H3 H4 H5 H6]. constructor; cbn [full d_step d_buf d_nodes d_state]; auto.
  rewrite len_app. lia.
Qed.
Lemma adv_full d i : d_step d <= len (d_buf d) -> adv (full d i) = full (adv d) i.
Proof.
  intros H. unfold adv, full. cbn. rewrite dropN_app_le by assumption. reflexivity.
Qed.
