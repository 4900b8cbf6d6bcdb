(** Decoding ends, reports a tree and nothing else, and cannot succeed on a part of an archive. *)
From Coq Require Import Sorted.
From Verif Require Import Base FeatureFlags ArchiveBase Decoder DecoderSpec DecoderProofs DecoderProofs2 DecoderProofs3
  DecoderProofs4 DecoderProofs5.
Local Open Scope N_scope.
Local Arguments fld : simpl never.
Local Arguments body : simpl never.

Definition npath (ns : list dnode) : list (list N) := rev (map dn_name (removelast ns)).
Lemma current_path_npath d : current_path d = npath (d_nodes d). Proof. reflexivity. Qed.
Lemma npath_cons x n up : npath (x :: n :: up) = npath (n :: up) ++ [dn_name x].
Proof. reflexivity. Qed.
Lemma npath_head n n' up : up <> [] -> dn_name n' = dn_name n -> npath (n' :: up) = npath (n :: up).
Proof. destruct up as [|m up]; [congruence|]. intros _ H. rewrite !npath_cons, H. reflexivity. Qed.
Lemma npath_head_any n n' up : (up = [] \/ dn_name n' = dn_name n) -> npath (n' :: up) = npath (n :: up).
Proof. destruct up as [|m up]; [reflexivity|]. intros [H | H]; [congruence|]. apply npath_head; congruence. Qed.

Definition valid_ents (ents : list (list N * tree)) : Prop :=
  Forall (fun e => is_component (fst e) /\ valid_tree (snd e)) ents.
Lemma valid_tree_dir m ents :
  valid_tree (TDir m ents) <-> valid_meta m /\ S_ISDIR (m_mode m) = true /\ valid_ents ents.
Proof.
  cbn [valid_tree]. split; intros (H1 & H2 & H3); split; auto; split; auto.
  - induction ents as [|[n c] l IH]; constructor; [|apply IH]; tauto.
  - induction H3 as [|[n c] l H IH]; cbn; tauto.
Qed.

Definition ents_obs (p : list (list N)) (ents : list (list N * tree)) : list obs :=
  concat (map (fun e => tree_obs (p ++ [fst e]) (snd e)) ents).

(** What may still come when the directories [up] are open. *)
Fixpoint after (up : list dnode) (o : list obs) : Prop :=
  match up with
  | [] => o = []
  | n :: up' => exists ents o', valid_ents ents /\ o = ents_obs (npath up) ents ++ ODone (npath up) :: o' /\ after up' o'
  end.

Definition cont (d : dec) (o : list obs) : Prop :=
  match d_nodes d with
  | [] => False
  | n :: up =>
      let p := npath (n :: up) in
      match d_state d with
      | D_INIT => exists m ents, valid_tree (TDir m ents) /\ o = tree_obs p (TDir m ents)
      | D_ENTERED => exists t o', valid_tree t /\ o = tree_obs p t ++ o' /\ after up o'
      | D_ENTRY => exists e t rest o', dn_entry n = Some e /\ valid_tree t /\ tree_obs p t = OFile p e :: rest /\
          o = rest ++ o' /\ after up o'
      | D_IN_PAYLOAD => exists e s data o', dn_entry n = Some e /\ dt_size e = Some s /\
          len data = s - (d_poff d + d_step d) /\ o = map OByte data ++ ODone p :: o' /\ after up o'
      | D_IN_DIRECTORY => after (n :: up) o
      | D_GOODBYE => exists o', o = ODone p :: o' /\ after up o'
      | D_FINALIZE => after up o
      | D_EOF => o = []
      end
  end.

(** In addition to [Inv]: it's an archive, and entries are well-formed. *)
Definition Sh (d : dec) : Prop :=
  is_naked d = false /\
  (d_state d = D_ENTRY -> forall n up e, d_nodes d = n :: up -> dn_entry n = Some e -> entry_shape e) /\
  (d_state d = D_INIT -> forall n, d_nodes d = [n] -> (S_ISREG (dn_mode n) || S_ISBLK (dn_mode n))%bool = false).

Lemma cont_adv d o : cont (adv d) o <-> cont d o.
Proof.
  unfold cont. cbn [adv d_nodes d_state]. destruct (d_nodes d) as [|n up]; [tauto|].
  destruct (d_state d) eqn:E; try tauto. unfold adv; cbn [d_poff d_step]. rewrite E, N.add_0_r. tauto.
Qed.
Lemma Sh_adv d : Sh d -> Sh (adv d). Proof. auto. Qed.

Lemma tree_obs_head p t : exists e rest, tree_obs p t = OFile p e :: rest /\
  dt_meta e = match t with TReg m _ | TDir m _ | TLnk m _ | TDev m _ _ | TOther m => m end.
Proof. destruct t; cbn; eexists _, _; split; reflexivity. Qed.

Ltac tx m D V := unfold S_ISREG, S_ISLNK, S_ISBLK, S_ISCHR, S_ISFIFO, S_ISSOCK, S_ISDIR in *;
  rewrite ?(type_excl m _ S_IFREG (ltac:(discriminate) : S_IFDIR <> S_IFREG) D),
    ?(type_excl m _ S_IFLNK (ltac:(discriminate) : S_IFDIR <> S_IFLNK) D),
    ?(type_excl m _ S_IFBLK (ltac:(discriminate) : S_IFDIR <> S_IFBLK) D),
    ?(type_excl m _ S_IFCHR (ltac:(discriminate) : S_IFDIR <> S_IFCHR) D),
    ?(type_excl m _ S_IFIFO (ltac:(discriminate) : S_IFDIR <> S_IFIFO) D),
    ?(type_excl m _ S_IFSOCK (ltac:(discriminate) : S_IFDIR <> S_IFSOCK) D) in V; discriminate.

Lemma valid_tree_is_dir p t e rest : valid_tree t -> tree_obs p t = OFile p e :: rest ->
  S_ISDIR (m_mode (dt_meta e)) = true -> exists m ents, t = TDir m ents.
Proof.
  intros V H D.
  destruct t as [m data|m ents|m tg|m x y|m]; cbn in H; injection H as <- _; cbn [dt_meta] in D; eauto; exfalso; cbn in V.
  - destruct V as [_ V]. tx (m_mode m) D V.
  - destruct V as (_ & V & _). tx (m_mode m) D V.
  - destruct V as (_ & V & _). tx (m_mode m) D V.
  - destruct V as (_ & V). tx (m_mode m) D V.
Qed.

(** Some valid tree. *)
Definition some_meta : meta := mkMeta 0x81A4 0 0 0 0 None None [] [] [] UINT64_MAX UINT64_MAX UINT64_MAX UINT64_MAX UINT64_MAX
  [] [] None None None.
Definition some_dir_meta : meta := mkMeta 0x41ED 0 0 0 0 None None [] [] [] UINT64_MAX UINT64_MAX UINT64_MAX UINT64_MAX UINT64_MAX
  [] [] None None None.
Lemma some_meta_valid : valid_meta some_meta.
Proof.
  constructor; cbn; unfold is_id, is_perm_opt, is_acl_list, ascending; auto using SSorted_nil; try discriminate;
    try (split; discriminate || reflexivity); try (split; constructor); try tauto; try constructor.
  all: try (intros [H|H]; congruence).
Qed.
Lemma some_dir_meta_valid : valid_meta some_dir_meta.
Proof.
  constructor; cbn; unfold is_id, is_perm_opt, is_acl_list, ascending; auto using SSorted_nil; try discriminate;
    try (split; discriminate || reflexivity); try (split; constructor); try tauto; try constructor.
  all: try (intros [H|H]; congruence).
Qed.

Lemma after_inhabited up : exists o, after up o.
Proof.
  induction up as [|n up [o IH]]; [exists []; reflexivity|]. eexists. cbn [after]. exists [], o. split; [constructor|]. split; [reflexivity|exact IH].
Qed.

(** The entry of a file and the tree it starts. *)
Lemma entry_tree_reg p e s data : entry_shape e -> S_ISREG (m_mode (dt_meta e)) = true -> dt_size e = Some s -> len data = s ->
  exists t, valid_tree t /\ tree_obs p t = OFile p e :: map OByte data ++ [ODone p].
Proof.
  intros E R S L. inversion E as [m s' V T|m V T|m t V T|m x y V T|m V T]; subst; cbn in *; try discriminate.
  injection S as ->. exists (TReg m data). split; [split; assumption|reflexivity].
Qed.
Lemma entry_tree_dir p e ents : entry_shape e -> S_ISDIR (m_mode (dt_meta e)) = true -> valid_ents ents ->
  exists t, valid_tree t /\ tree_obs p t = OFile p e :: ents_obs p ents ++ [ODone p].
Proof.
  intros E D V.
  inversion E as [m s' V' T|m V' T|m t V' T|m x y V' T|m V' T]; subst; cbn [dt_meta] in D; try (exfalso; tx (m_mode m) D T).
  exists (TDir m ents). split; [apply valid_tree_dir; auto|reflexivity].
Qed.
Lemma entry_tree_other p e : entry_shape e -> S_ISREG (m_mode (dt_meta e)) = false -> S_ISDIR (m_mode (dt_meta e)) = false ->
  exists t, valid_tree t /\ tree_obs p t = OFile p e :: [ODone p].
Proof.
  intros E R D.
  inversion E as [m s' V' T|m V' T|m t V' T|m x y V' T|m V' T]; subst; cbn [dt_meta] in *; try congruence.
  - exists (TLnk m t). split; [cbn; tauto|reflexivity].
  - exists (TDev m x y). split; [cbn; tauto|reflexivity].
  - exists (TOther m). split; [cbn; tauto|reflexivity].
Qed.

(** From an entry on. *)
Lemma cont_entry_reg d n up e s : d_nodes d = n :: up -> d_state d = D_ENTRY -> dn_entry n = Some e -> entry_shape e ->
  S_ISREG (m_mode (dt_meta e)) = true -> dt_size e = Some s -> forall o, cont (enter d D_IN_PAYLOAD 0) o -> cont d o.
Proof.
  intros Hn Hs He E R S o. unfold cont. cbn [enter d_nodes d_state d_poff d_step]. rewrite Hn, Hs.
  intros (e' & s' & data & o' & A1 & A2 & A3 & A4 & A5).
  assert (e' = e) by congruence. subst e'. assert (s' = s) by congruence. subst s'.
  destruct (entry_tree_reg (npath (n :: up)) e s data E R S ltac:(rewrite A3; lia)) as (t & T1 & T2).
  exists e, t, (map OByte data ++ [ODone (npath (n :: up))]), o'. repeat split; auto.
  rewrite <- app_assoc. exact A4.
Qed.
Lemma cont_entry_dir d n up e : d_nodes d = n :: up -> d_state d = D_ENTRY -> dn_entry n = Some e -> entry_shape e ->
  S_ISDIR (m_mode (dt_meta e)) = true -> forall o, cont (enter d D_IN_DIRECTORY 0) o -> cont d o.
Proof.
  intros Hn Hs He E R o. unfold cont. cbn [enter d_nodes d_state d_poff d_step]. rewrite Hn, Hs.
  intros (ents & o' & A1 & A2 & A3).
  destruct (entry_tree_dir (npath (n :: up)) e ents E R A1) as (t & T1 & T2).
  exists e, t, (ents_obs (npath (n :: up)) ents ++ [ODone (npath (n :: up))]), o'. repeat split; auto.
  rewrite <- app_assoc. exact A2.
Qed.

Lemma step_payload_cont d n up x d' o : Inv0 d -> is_naked d = false -> d_nodes d = n :: up -> d_state d = D_IN_PAYLOAD ->
  step_payload d n = Ok (x, d') -> x <> R_REQUEST -> x <> R_FINISHED -> cont d' o -> cont d (observe x d' ++ o).
Proof.
  intros [I H0] Hk Hn Hs H Hx1 Hx2 Hc.
  destruct (step_payload_mode _ _ _ H) as [M1 M2].
  assert (Hh := I_head _ I). unfold head_ok in Hh. rewrite Hn, Hs in Hh.
  destruct Hh as [Hh | (e & s & A1 & A2 & A3 & A4 & A5 & A6)]; [congruence|].
  unfold step_payload in H. destruct (node_mode n =? MODE_NONE); [discriminate|]. destruct (negb _); [discriminate|].
  rewrite A1, A4 in H.
  destruct (N.ltb_spec s (d_poff d)) as [L | L]; [discriminate|].
  destruct (N.eqb_spec (d_poff d) s) as [L2 | L2].
  { injection H as <- <-. cbn [observe]. rewrite current_path_npath. cbn [enter d_nodes]. rewrite Hn.
    unfold cont in *. cbn [enter d_nodes d_state] in Hc. rewrite Hn in *. rewrite Hs.
    exists e, s, [], o. repeat split; auto. rewrite len_nil. lia. }
  destruct (N.ltb_spec 0 (len (d_buf d))) as [L3 | L3].
  2: { destruct (d_eof d); [discriminate|]. injection H as <- <-. congruence. }
  set (k := N.min (len (d_buf d)) (s - d_poff d)) in *.
  assert (x = R_PAYLOAD) by congruence. subst x.
  assert (Hd' : d' = mkDec (d_state d) (d_ff d) (d_nodes d) (d_buf d) (d_eof d) (d_aoff d) (d_poff d) k (d_bound d)) by congruence.
  rewrite (observe_payload d' n up); [| subst d'; exact Hn | subst d'; exact Hs | assumption | assumption | subst d'; cbn; unfold k; lia].
  subst d'. cbn [d_step d_buf].
  unfold cont in *. cbn [d_nodes d_state d_poff d_step] in Hc. rewrite Hn, Hs in *.
  destruct Hc as (e' & s' & data & o' & B1 & B2 & B3 & B4 & B5).
  assert (e' = e) by congruence. subst e'. assert (s' = s) by congruence. subst s'.
  exists e, s, (takeN k (d_buf d) ++ data), o'. repeat split; auto.
  - rewrite len_app, len_takeN, B3, H0. unfold k. lia.
  - rewrite map_app, <- app_assoc, <- B4. reflexivity.
Qed.

Lemma step_filename_cont d n up x d' o : d_nodes d = n :: up -> d_state d = D_IN_DIRECTORY ->
  step_filename d n = Ok (x, d') -> x <> R_REQUEST -> cont d' o -> cont d (observe x d' ++ o).
Proof.
  intros Hn Hs H Hx Hc. unfold step_filename in H.
  destruct (parse_filename (d_buf d)) as [|e|name l|g l] eqn:E; [congruence|discriminate| |].
  - destruct (_ <=? _); [discriminate|]. injection H as <- <-. cbn [observe app].
    apply parse_filename_name in E. destruct E as [E _].
    unfold cont in *. cbn [enter set_nodes d_nodes d_state] in Hc. rewrite Hn in *. rewrite Hs.
    destruct Hc as (t & o' & C1 & C2 & ents & o2 & C3 & C4 & C5).
    exists ((name, t) :: ents), o2. split; [constructor; auto|]. split; [|exact C5].
    rewrite C2, C4. unfold ents_obs. cbn [map concat fst snd]. rewrite npath_cons. cbn [dn_name].
    rewrite <- app_assoc. reflexivity.
  - destruct (_ && _)%bool; [discriminate|]. injection H as <- <-. cbn [observe app].
    unfold cont in *. cbn [enter set_nodes d_nodes d_state] in Hc. rewrite Hn in *. rewrite Hs.
    destruct Hc as (o' & C1 & C2). exists [], o'. split; [constructor|]. split; [exact C1|exact C2].
Qed.

Lemma step_cont env d x d' o : Inv d -> Sh d -> decoder_step env d = Ok (x, d') -> x <> R_REQUEST -> x <> R_FINISHED ->
  cont d' o -> cont d (observe x d' ++ o).
Proof.
  intros HI (K1 & K2 & K3) H Hx1 Hx2 Hc.
  assert (Hne : d_state d <> D_EOF). { intros E. unfold decoder_step in H. rewrite E in H. congruence. }
  destruct (nodes_of_Inv _ HI) as (n & up & Hn).
  rewrite decoder_step_adv, Hn in H by assumption.
  apply cont_adv. assert (HI0 := Inv0_adv _ HI).
  assert (Hna : d_nodes (adv d) = n :: up) by exact Hn.
  assert (Hka : is_naked (adv d) = false) by exact K1.
  assert (K2a : d_state (adv d) = D_ENTRY -> forall e, dn_entry n = Some e -> entry_shape e).
  { intros Z e Ze. eapply K2; eauto. }
  set (a := adv d) in *. clearbody a. clear Hne Hn HI K1 K2 K3 d. rename a into d.
  assert (HI := proj1 HI0). assert (H0 := proj2 HI0).
  assert (Hh := I_head _ HI). unfold head_ok in Hh. rewrite Hna in Hh.
  assert (SE : step_entry env d n up = Ok (x, d') -> (d_state d = D_INIT \/ d_state d = D_ENTERED) -> cont d (observe x d' ++ o)).
  { unfold step_entry. destruct (parse_entry env (at_root d) (d_ff d) (d_buf d)) as [[|e|e off] ff'] eqn:E;
      [intros Q; injection Q as <- <-; congruence|discriminate|].
    intros Q Hs. injection Q as <- <-. cbn [observe enter set_nodes set_ff d_nodes dn_entry].
    rewrite current_path_npath. cbn [enter set_nodes set_ff d_nodes].
    rewrite (npath_head_any n) by (right; reflexivity).
    unfold cont in Hc. cbn [enter set_nodes set_ff d_nodes d_state dn_entry] in Hc.
    rewrite (npath_head_any n) in Hc by (right; reflexivity).
    destruct Hc as (e' & t & rest & o' & C1 & C2 & C3 & C4 & C5). injection C1 as <-.
    unfold cont. rewrite Hna. destruct Hs as [Hs | Hs]; rewrite Hs in *.
    - destruct Hh as [-> _]. apply parse_entry_ok in E. destruct E as [E _].
      assert (D : S_ISDIR (m_mode (dt_meta e)) = true). { apply E. unfold at_root. rewrite Hna. reflexivity. }
      destruct (valid_tree_is_dir _ _ _ _ C2 C3 D) as (m & ents & ->).
      exists m, ents. split; [exact C2|]. rewrite C3, C4. cbn [after] in C5. subst o'. rewrite app_nil_r. reflexivity.
    - exists t, o'. split; [exact C2|]. rewrite C3, C4. split; [reflexivity|exact C5]. }
  unfold step_node in H. destruct (d_state d) eqn:Hs.
  - destruct (is_naked d); [discriminate|]. auto.
  - auto.
  - destruct Hh as (e & A1 & A2 & A3 & A4). unfold node_mode in H. rewrite A1 in H.
    destruct (_ =? _); [discriminate|]. assert (E := K2a eq_refl e A1).
    destruct (S_ISREG (m_mode (dt_meta e))) eqn:R.
    + destruct (dt_size e) as [s|] eqn:S; [|exfalso; exact (A3 eq_refl eq_refl)].
      eapply cont_entry_reg; eauto. eapply step_payload_cont; eauto.
      split; [|reflexivity]. apply Inv_enter; auto; try lia; try discriminate.
      unfold head_ok. cbn. rewrite Hna. right. exists e, s. repeat split; auto; [lia|].
      intros ->. exact (reg_not_dir _ R (A4 eq_refl)).
    + destruct (S_ISDIR (m_mode (dt_meta e))) eqn:D.
      * eapply cont_entry_dir; eauto. eapply step_filename_cont; eauto.
      * injection H as <- <-. cbn [observe]. rewrite current_path_npath. cbn [enter d_nodes].
        unfold cont in *. cbn [enter d_nodes d_state] in Hc. rewrite Hna, Hs in *.
        destruct (entry_tree_other (npath (n :: up)) e E R D) as (t & T1 & T2).
        exists e, t, [ODone (npath (n :: up))], o. repeat split; auto.
  - eapply step_payload_cont; eauto.
  - destruct (_ =? _); [discriminate|]. destruct (negb _); [discriminate|]. eapply step_filename_cont; eauto.
  - destruct (_ =? _); [discriminate|]. destruct (negb _); [discriminate|]. injection H as <- <-.
    cbn [observe]. rewrite current_path_npath. cbn [enter d_nodes].
    unfold cont in *. cbn [enter d_nodes d_state] in Hc. rewrite Hna, Hs in *. exists o. auto.
  - destruct (N.leb_spec (len up) (d_bound d)) as [Lb | Lb]; injection H as <- <-; [congruence|].
    destruct up as [|n' up]; [change (@len dnode []) with 0 in Lb; lia|]. cbn [observe app].
    unfold cont in *. cbn [enter set_nodes d_nodes d_state] in Hc. rewrite Hna, Hs. exact Hc.
  - discriminate.
Qed.

Lemma step_Sh env d x d' : Inv d -> Sh d -> decoder_step env d = Ok (x, d') -> x <> R_FINISHED -> Sh d'.
Proof.
  intros HI HSh H Hx.
  assert (Hne : d_state d <> D_EOF). { intros E. unfold decoder_step in H. rewrite E in H. congruence. }
  destruct (nodes_of_Inv _ HI) as (n & up & Hn).
  rewrite decoder_step_adv, Hn in H by assumption.
  apply Sh_adv in HSh. assert (HI0 := Inv0_adv _ HI).
  assert (Hna : d_nodes (adv d) = n :: up) by exact Hn.
  set (a := adv d) in *. clearbody a. clear Hne Hn HI d. rename a into d.
  destruct HSh as (K1 & K2 & K3). assert (HI := proj1 HI0).
  assert (Hh := I_head _ HI). unfold head_ok in Hh. rewrite Hna in Hh.
  assert (KE : forall s k, s <> D_ENTRY -> s <> D_INIT -> Sh (enter d s k)).
  { intros s k Q1 Q2. split; [exact K1|]. split; cbn [enter d_state]; congruence. }
  assert (SE : step_entry env d n up = Ok (x, d') -> (d_state d = D_INIT \/ d_state d = D_ENTERED) -> Sh d').
  { unfold step_entry. destruct (parse_entry env (at_root d) (d_ff d) (d_buf d)) as [[|e|e off] ff'] eqn:E; [|discriminate|].
    - intros Q Hs. injection Q as <- <-. split; [|split].
      + unfold is_naked. cbn. destruct up; reflexivity.
      + cbn. destruct Hs as [-> | ->]; discriminate.
      + intros _ n' Q. cbn in Q. injection Q as <- _. reflexivity.
    - intros Q Hs. injection Q as <- <-. split; [|split].
      + unfold is_naked. cbn. destruct up; reflexivity.
      + intros _ n' up' e' Q1 Q2. cbn in Q1. injection Q1 as <- <-. injection Q2 as <-.
        eapply parse_entry_shape; eassumption.
      + discriminate. }
  assert (SP : forall st, Sh st -> d_state st = D_IN_PAYLOAD -> step_payload st n = Ok (x, d') -> Sh d').
  { intros st (Q1 & Q2 & Q3) Q. unfold step_payload.
    assert (KE' : forall s k, s <> D_ENTRY -> s <> D_INIT -> Sh (enter st s k)).
    { intros s k Z1 Z2. split; [exact Q1|]. split; cbn [enter d_state]; congruence. }
    destruct (_ =? _); [discriminate|]. destruct (negb _); [discriminate|].
    destruct (match dn_entry n with Some e => dt_size e | None => None end).
    - destruct (_ <? _); [discriminate|].
      destruct (_ =? _); [intros Z; injection Z as _ <-; apply KE'; discriminate|].
      destruct (_ <? _); [intros Z; injection Z as _ <-; split; [exact Q1|split; cbn; congruence]|].
      destruct (d_eof st); [discriminate|]. intros Z; injection Z as _ <-. split; auto.
    - destruct (_ <? _); [intros Z; injection Z as _ <-; split; [exact Q1|split; cbn; congruence]|].
      destruct (d_eof st); [|intros Z; injection Z as _ <-; split; auto].
      destruct (negb _); [discriminate|].
      destruct (is_naked st); intros Z; injection Z as _ <-; apply KE'; discriminate. }
  assert (SF : forall st, Sh st -> d_nodes st = n :: up -> d_state st = D_IN_DIRECTORY -> step_filename st n = Ok (x, d') -> Sh d').
  { intros st (Q1 & Q2 & Q3) Qn Q. unfold step_filename. destruct (parse_filename _); [|discriminate| |].
    - intros Z; injection Z as _ <-. split; auto.
    - destruct (_ <=? _); [discriminate|]. intros Z; injection Z as _ <-. split; [|split; cbn; discriminate].
      unfold is_naked. cbn. rewrite Qn. reflexivity.
    - destruct (_ && _)%bool; [discriminate|]. intros Z; injection Z as _ <-. split; [exact Q1|split; cbn; discriminate]. }
  unfold step_node in H. destruct (d_state d) eqn:Hs.
  - rewrite K1 in H. auto.
  - auto.
  - destruct (_ =? _); [discriminate|].
    destruct (S_ISREG _); [eapply SP; [| |exact H]; [apply KE; discriminate|reflexivity]|].
    destruct (S_ISDIR _); [eapply SF; [| | |exact H]; [apply KE; discriminate|exact Hna|reflexivity]|].
    injection H as _ <-. apply KE; discriminate.
  - eapply SP; [|exact Hs|exact H]. split; auto. split; [intros; congruence|]. intros; congruence.
  - destruct (_ =? _); [discriminate|]. destruct (negb _); [discriminate|].
    eapply SF; [|exact Hna|exact Hs|exact H]. split; auto. split; intros; congruence.
  - destruct (_ =? _); [discriminate|]. destruct (negb _); [discriminate|]. injection H as _ <-. apply KE; discriminate.
  - destruct (N.leb_spec (len up) (d_bound d)) as [Lb | Lb]; injection H as <- <-; [congruence|].
    destruct up as [|n' up]; [change (@len dnode []) with 0 in Lb; lia|]. split; [|split; cbn; discriminate].
    assert (U := I_up _ HI). unfold inner in U. rewrite Hna in U. cbn [tl] in U. apply inner_uncons in U; [|exact Lb]. destruct U as [(e & U1 & _) _].
    unfold is_naked. cbn. destruct up; [|reflexivity]. rewrite U1. reflexivity.
  - discriminate.
Qed.

Lemma cont_inhabited d : Inv d -> Sh d -> d_state d <> D_EOF -> exists o, cont d o.
Proof.
  intros HI (K1 & K2 & K3) Hne. destruct (nodes_of_Inv _ HI) as (n & up & Hn).
  assert (Hh := I_head _ HI). unfold head_ok in Hh. rewrite Hn in Hh.
  destruct (after_inhabited up) as [oa Ha].
  unfold cont. rewrite Hn. destruct (d_state d) eqn:Hs.
  - eexists. exists some_dir_meta, []. split; [|reflexivity]. apply valid_tree_dir. split; [apply some_dir_meta_valid|].
    split; [reflexivity|constructor].
  - eexists. exists (TReg some_meta []), oa. split; [split; [apply some_meta_valid|reflexivity]|]. split; [reflexivity|exact Ha].
  - destruct Hh as (e & A1 & A2 & A3 & A4). assert (E := K2 eq_refl _ _ _ Hn A1).
    destruct (S_ISREG (m_mode (dt_meta e))) eqn:R.
    + destruct (dt_size e) as [s|] eqn:S; [|exfalso; apply (A3 eq_refl eq_refl)].
      destruct (entry_tree_reg (npath (n :: up)) e s (repeat 0 (N.to_nat s)) E R S) as (t & T1 & T2).
      { unfold len. rewrite repeat_length. lia. }
      eexists. exists e, t. eexists. exists oa. repeat split; eauto.
    + destruct (S_ISDIR (m_mode (dt_meta e))) eqn:D.
      * destruct (entry_tree_dir (npath (n :: up)) e [] E D ltac:(constructor)) as (t & T1 & T2).
        eexists. exists e, t. eexists. exists oa. repeat split; eauto.
      * destruct (entry_tree_other (npath (n :: up)) e E R D) as (t & T1 & T2).
        eexists. exists e, t. eexists. exists oa. repeat split; eauto.
  - destruct Hh as [Hh | (e & s & A1 & A2 & A3 & A4 & A5 & A6)]; [congruence|].
    eexists. exists e, s, (repeat 0 (N.to_nat (s - (d_poff d + d_step d)))), oa. repeat split; auto.
    unfold len. rewrite repeat_length. lia.
  - destruct (after_inhabited (n :: up)) as [o Ho]. exists o. exact Ho.
  - eexists. exists oa. split; [reflexivity|exact Ha].
  - exists oa. exact Ha.
  - congruence.
Qed.

Lemma step_finished_cont env d d' : Inv d -> Sh d -> d_bound d = 0 -> decoder_step env d = Ok (R_FINISHED, d') -> cont d [].
Proof.
  intros HI (K1 & K2 & K3) Hb0 H. change (d_bound (adv d) = 0) in Hb0. destruct (nodes_of_Inv _ HI) as (n & up & Hn).
  assert (He : d_state d = D_EOF \/ d_state d <> D_EOF) by (destruct (d_state d); auto; right; discriminate).
  destruct He as [He | He]; [unfold cont; rewrite Hn, He; reflexivity|].
  rewrite decoder_step_adv, Hn in H by assumption.
  assert (Hna : d_nodes (adv d) = n :: up) by exact Hn.
  assert (Hka : is_naked (adv d) = false) by exact K1.
  apply cont_adv. set (a := adv d) in *. clearbody a. clear - H Hna Hka Hb0. rename a into d.
  assert (SE : step_entry env d n up = Ok (R_FINISHED, d') -> False).
  { unfold step_entry. destruct (parse_entry _ _ _ _) as [[| |] ?]; discriminate. }
  assert (SP : forall st, is_naked st = false -> step_payload st n = Ok (R_FINISHED, d') -> False).
  { intros st Q. unfold step_payload. rewrite Q.
    destruct (_ =? _); [discriminate|]. destruct (negb _); [discriminate|].
    destruct (match dn_entry n with Some e => dt_size e | None => None end).
    - destruct (_ <? _); [discriminate|]. destruct (_ =? _); [discriminate|]. destruct (_ <? _); [discriminate|].
      destruct (d_eof st); discriminate.
    - destruct (_ <? _); [discriminate|]. destruct (d_eof st); [|discriminate]. destruct (negb _); discriminate. }
  assert (SF : forall d, step_filename d n = Ok (R_FINISHED, d') -> False).
  { clear. intros d. unfold step_filename. destruct (parse_filename _); try discriminate.
    - destruct (_ <=? _); discriminate. - destruct (_ && _)%bool; discriminate. }
  unfold step_node in H. unfold cont. rewrite Hna. destruct (d_state d) eqn:Hs.
  - rewrite Hka in H. destruct (SE H).
  - destruct (SE H).
  - destruct (_ =? _); [discriminate|]. destruct (S_ISREG _); [destruct (SP _ (Hka : is_naked (enter d D_IN_PAYLOAD 0) = false) H)|].
    destruct (S_ISDIR _); [destruct (SF _ H)|discriminate].
  - destruct (SP _ Hka H).
  - destruct (_ =? _); [discriminate|]. destruct (negb _); [discriminate|]. destruct (SF _ H).
  - destruct (_ =? _); [discriminate|]. destruct (negb _); discriminate.
  - destruct (N.leb_spec (len up) (d_bound d)) as [Lb | Lb]; [|discriminate]. rewrite Hb0 in Lb.
    destruct up as [|? ?]; [reflexivity|rewrite len_cons in Lb; lia].
  - reflexivity.
Qed.

Lemma not_eof_of_step env d x d' : decoder_step env d = Ok (x, d') -> x <> R_FINISHED -> d_state d <> D_EOF.
Proof. intros H Hx E. unfold decoder_step in H. rewrite E in H. congruence. Qed.

Lemma step_bound env d x d' : decoder_step env d = Ok (x, d') -> d_bound d' = d_bound d.
Proof.
  unfold decoder_step. intros H. assert (He : d_state d = D_EOF \/ d_state d <> D_EOF) by (destruct (d_state d); auto; right; discriminate).
  destruct He as [He | He]; [rewrite He in H; injection H as _ <-; reflexivity|].
  assert (H' : match d_nodes d with [] => Err EUNATCH | _ :: _ => let! d := advance_buffer d in match d_nodes d with [] => Err EUNATCH | n :: up => step_node env d n up end end = Ok (x, d'))
    by (destruct (d_state d); congruence).
  clear H He. destruct (d_nodes d) as [|n0 up0]; [discriminate|].
  assert (A : forall a, advance_buffer d = Ok a -> d_bound a = d_bound d).
  { intros a. unfold advance_buffer. destruct (_ =? _); [congruence|]. destruct (_ <? _); [discriminate|]. intros Z; injection Z as <-; reflexivity. }
  destruct (advance_buffer d) as [a| | |]; cbn [bind] in H'; try discriminate. rewrite <- (A a eq_refl). clear A d n0 up0.
  destruct (d_nodes a) as [|n up]; [discriminate|].
  assert (SP : forall st, step_payload st n = Ok (x, d') -> d_bound d' = d_bound st).
  { intros st. unfold step_payload. destruct (_ =? _); [discriminate|]. destruct (negb _); [discriminate|].
    destruct (match dn_entry n with Some e => dt_size e | None => None end).
    - destruct (_ <? _); [discriminate|]. destruct (_ =? _); [intros E; injection E as _ <-; reflexivity|].
      destruct (_ <? _); [intros E; injection E as _ <-; reflexivity|].
      destruct (d_eof st) eqn:Z; [discriminate|]. intros E; injection E as _ <-; reflexivity.
    - destruct (_ <? _); [intros E; injection E as _ <-; reflexivity|].
      destruct (d_eof st) eqn:Z; [|intros E; injection E as _ <-; reflexivity].
      destruct (negb _); [discriminate|]. destruct (is_naked st); intros E; injection E as _ <-; reflexivity. }
  assert (SF : forall st, step_filename st n = Ok (x, d') -> d_bound d' = d_bound st).
  { intros st. unfold step_filename. destruct (parse_filename _); [|discriminate| |].
    - intros E; injection E as _ <-; reflexivity.
    - destruct (_ <=? _); [discriminate|]. intros E; injection E as _ <-; reflexivity.
    - destruct (_ && _)%bool; [discriminate|]. intros E; injection E as _ <-; reflexivity. }
  assert (SE : step_entry env a n up = Ok (x, d') -> d_bound d' = d_bound a).
  { unfold step_entry. destruct (parse_entry _ _ _ _) as [[| |] ?]; try discriminate; intros E; injection E as _ <-; reflexivity. }
  unfold step_node in H'. destruct (d_state a).
  - destruct (is_naked a); [apply SP in H'; exact H'|auto].
  - auto.
  - destruct (_ =? _); [discriminate|]. destruct (S_ISREG _); [apply SP in H'; exact H'|].
    destruct (S_ISDIR _); [apply SF in H'; exact H'|]. injection H' as _ <-; reflexivity.
  - apply SP; assumption.
  - destruct (_ =? _); [discriminate|]. destruct (negb _); [discriminate|]. apply SF; assumption.
  - destruct (_ =? _); [discriminate|]. destruct (negb _); [discriminate|]. injection H' as _ <-; reflexivity.
  - destruct (_ <=? _); injection H' as _ <-; reflexivity.
  - discriminate.
Qed.

Lemma erun_cont env d o r : erun env d o r -> Inv d -> Sh d -> d_bound d = 0 ->
  exists o2, cont d (o ++ o2) /\ (forall rest, r = Finished rest -> o2 = []).
Proof.
  induction 1 as [d x d' o r H H1 H2 H3 IH | d d' H | d e H | d d' H | d H]; intros HI HS HB.
  - destruct (IH (Inv_of_step _ _ _ _ HI H) (step_Sh _ _ _ _ HI HS H H1) ltac:(rewrite (step_bound _ _ _ _ H); exact HB)) as (o2 & C1 & C2).
    exists o2. split; [|exact C2]. rewrite <- app_assoc. eapply step_cont; eauto.
  - exists []. split; [|auto]. cbn. eapply step_finished_cont; eauto.
  - destruct (cont_inhabited d HI HS) as [o2 C]; [intros E; unfold decoder_step in H; rewrite E in H; discriminate|].
    exists o2. split; [exact C|discriminate].
  - destruct (cont_inhabited d HI HS) as [o2 C]; [eapply not_eof_of_step; eauto; discriminate|].
    exists o2. split; [exact C|discriminate].
  - pose proof (decoder_step_good env d HI) as G. destruct H as [H | H]; rewrite H in G; destruct G.
Qed.

Lemma Sh_new mode d : S_ISDIR mode = true -> decoder_new mode = Ok d -> Sh d.
Proof.
  intros D. unfold decoder_new. rewrite D. replace (negb (S_ISREG mode) && negb true && negb (S_ISBLK mode)) with false
    by (cbn [negb]; rewrite Bool.andb_false_r; reflexivity). intros H. injection H as <-.
  assert (E : (S_ISREG mode || S_ISBLK mode)%bool = false).
  { unfold S_ISREG, S_ISBLK. rewrite (type_excl mode S_IFDIR S_IFREG), (type_excl mode S_IFDIR S_IFBLK); auto; discriminate. }
  split; [|split].
  - unfold is_naked. cbn. exact E.
  - discriminate.
  - intros _ n Q. cbn in Q. injection Q as <-. exact E.
Qed.

Lemma new_eof mode d : decoder_new mode = Ok d -> d_eof d = false.
Proof. unfold decoder_new. destruct (_ && _ && _)%bool; [discriminate|]. intros H. injection H as <-. reflexivity. Qed.

Lemma new_bound mode d : decoder_new mode = Ok d -> d_bound d = 0.
Proof. unfold decoder_new. destruct (_ && _ && _)%bool; [discriminate|]. intros H. injection H as <-. reflexivity. Qed.

(** What any use of a decoder reports is the beginning of the report of a valid tree, and all of it in case of success. *)
Theorem drun_tree env mode d i o r : S_ISDIR mode = true -> decoder_new mode = Ok d -> drun env d i o r ->
  exists m ents more, valid_tree (TDir m ents) /\ tree_obs [] (TDir m ents) = o ++ more /\
    (forall rest, r = Finished rest -> more = []).
Proof.
  intros D H R. assert (HI := Inv_new _ _ H). assert (HS := Sh_new _ _ D H).
  apply drun_erun in R; [|assumption|rewrite (new_eof _ _ H); discriminate].
  apply erun_cont in R; [|apply Inv_full, HI|exact HS|exact (new_bound _ _ H)].
  destruct R as (o2 & C & F).
  unfold decoder_new in H. destruct (_ && _ && _)%bool; [discriminate|]. injection H as <-.
  unfold cont in C. cbn [full d_nodes d_state] in C. destruct C as (m & ents & C1 & C2).
  exists m, ents, o2. auto.
Qed.
