(** A step of the extracting decoder, and the tree that the observations build up. *)
From Coq Require Import Permutation Sorted.
From Verif Require Import Base FeatureFlags FeatureFlagsProofs ArchiveBase Decoder DecoderSpec DecoderProofs DecoderProofs2 DecoderProofs3 DecoderProofs4 DecoderProofs5 DecoderProofs8 Encoder Fs Extract
  ExtractSpec ExtractProofs1 ExtractProofs2 ExtractProofs3 ExtractProofs5 ExtractedSpec ExtractedProofs1 ExtractedProofs2 ExtractedProofs3 ExtractedProofs4 ExtractedProofs5 ExtractedProofs6.
Local Open Scope N_scope.

(** ** The flags of an archive *)
Lemma entry_flags env ar ff p r ff' : parse_entry env ar ff p = (r, ff') -> match r with RErr _ => False | _ => True end ->
  (r = RReq /\ ff' = ff) \/ (ENTRY_SIZE <= len p /\ ff' = fld 16 p /\ fld 16 p <> UINT64_MAX /\ (ff = UINT64_MAX \/ ff = fld 16 p)).
Proof.
  unfold parse_entry. cbn [parse_loop]. intros H Hr. pose proof (parse_obj_inv env ff pacc0 p) as I.
  destruct (parse_obj env ff pacc0 p) as [[|e|a' l|a' c w] ff1]; cbn [obj_result] in I.
  - injection H as <- <-. left. auto.
  - injection H as <- <-. contradiction.
  - destruct I as [I1 [(_ & -> & _ & _ & e & V & I2 & _) | (_ & I2 & _)]]; [|exfalso; apply I2; reflexivity]. right.
    apply parse_loop_ff in H; [|congruence]. subst ff'. split; [apply I1|].
    unfold validate_format_entry in V. cbn [pe_ff] in V. destruct (validate_feature_flags env ff (fld 16 p)) as [ok ff2] eqn:E. destruct ok; cbn [negb] in V; [|discriminate].
    assert (ff2 = ff1).
    { clear - V. repeat match goal with H : (if ?c then _ else _) = _ |- _ => destruct c; try discriminate end. congruence. }
    subst ff2. unfold validate_feature_flags in E. destruct (N.eqb_spec (fld 16 p) UINT64_MAX) as [Q | Q]; [discriminate|].
    destruct (_ && _)%bool; [discriminate|]. destruct (match feature_flags_are_normalized (fld 16 p) with Ok b => negb b | _ => _ end); [discriminate|].
    destruct (N.eqb_spec ff UINT64_MAX) as [Q1 | Q1]; injection E as E1 E2.
    + subst. auto.
    + apply N.eqb_eq in E1. subst. auto.
  - destruct I as (_ & _ & _ & I & _). exfalso. apply I. reflexivity.
Qed.

Section Steps.
Variables (env : denv) (fe : fenv) (cfg : xcfg) (flags b : N) (whole : list N).
Hypothesis Hfe : sound_env fe.
Hypothesis Hshift : c_shift cfg < two32.
Hypothesis Hperm : has flags WITH_PERMISSIONS = true -> has flags WITH_READ_ONLY = false.
Hypothesis Hsel : has flags WITH_SELINUX = false.
Hypothesis Hflags : determine_replay_feature_flags (archive_flags whole) (de_mask env) = Ok flags.
Notation wok := (wok fe).
Notation levels := (levels cfg flags b).
Notation hold := (hold cfg flags).
Notation pending := (pending cfg flags b).

Definition mt (n : dnode) (f : frame) : Prop := dn_name n = fr_name f /\ dn_entry n = Some (fr_entry f).
Definition fresh (F : N -> Prop) (w : fs) (c : xnode) : Prop := c = mkXnode (Some b) None [] /\ b < f_next w /\ ~ F b /\ exists a, f_ino w b = Some (mkInode a (BDir [])).

Definition stage (d : dec) (n : dnode) (dup : list dnode) (c : xnode) (up : list xnode) (st : build) (F : N -> Prop) (w : fs) : Prop :=
  match d_state d with
  | D_INIT => st = Building [] /\ up = [] /\ dup = [] /\ fresh F w c
  | D_ENTERED => exists frs, st = Building frs /\ Forall2 mt dup frs /\ up <> [] /\ c = xnode0 /\ levels F w (Some (dn_name n)) [] (f_next w) up frs
  | D_ENTRY => exists e frs, dn_entry n = Some e /\ st = Building (mkFrame (dn_name n) e [] [] :: frs) /\ Forall2 mt dup frs /\ fits (dn_name n) frs = true /\
      ((up = [] /\ fresh F w c) \/ (up <> [] /\ c = xnode0 /\ levels F w (Some (dn_name n)) [] (f_next w) up frs))
  | D_IN_DIRECTORY | D_GOODBYE => exists frs, st = Building frs /\ Forall2 mt (n :: dup) frs /\ levels F w None [] (f_next w) (c :: up) frs
  | D_IN_PAYLOAD => exists e data frs, dn_entry n = Some e /\ S_ISREG (m_mode (dt_meta e)) = true /\
      st = Building (mkFrame (dn_name n) e [] (data ++ takeN (d_step d) (d_buf d)) :: frs) /\ Forall2 mt dup frs /\ pending F w (mkFrame (dn_name n) e [] data) frs c up
  | D_FINALIZE => exists f frs, st = close f frs /\ mt n f /\ Forall2 mt dup frs /\ (levels F w None [] (f_next w) (c :: up) (f :: frs) \/ pending F w f frs c up)
  | D_EOF => False
  end.
(** After what a step does to the file system, before what it does to the decoder. *)
Definition ready (d : dec) (n : dnode) (dup : list dnode) (c : xnode) (up : list xnode) (st : build) (F : N -> Prop) (w : fs) : Prop :=
  match d_state d with
  | D_ENTRY => exists e frs, dn_entry n = Some e /\ st = Building (mkFrame (dn_name n) e [] [] :: frs) /\ Forall2 mt dup frs /\
      ((S_ISDIR (m_mode (dt_meta e)) = true /\ levels F w None [] (f_next w) (c :: up) (mkFrame (dn_name n) e [] [] :: frs)) \/
       (S_ISDIR (m_mode (dt_meta e)) = false /\ pending F w (mkFrame (dn_name n) e [] []) frs c up))
  | D_IN_PAYLOAD => exists e data frs, dn_entry n = Some e /\ S_ISREG (m_mode (dt_meta e)) = true /\
      st = Building (mkFrame (dn_name n) e [] data :: frs) /\ Forall2 mt dup frs /\ pending F w (mkFrame (dn_name n) e [] data) frs c up
  | D_FINALIZE => exists f frs, st = close f frs /\ mt n f /\ Forall2 mt dup frs /\
      match up, frs with
      | [], [] => hold F w b (tree_of f)
      | _ :: _, q :: frs' => levels F w None [] (f_next w) up (add_kid q (fr_name f) (tree_of f) :: frs')
      | _, _ => False
      end
  | _ => stage d n dup c up st F w
  end.

Definition flags_ok (d : dec) (i : list N) : Prop :=
  match d_state d with
  | D_INIT => d_step d = 0 /\ d_buf d ++ i = whole /\ (d_ff d = UINT64_MAX \/ d_ff d = archive_flags whole)
  | _ => d_ff d = archive_flags whole /\ archive_flags whole <> UINT64_MAX
  end.

Record J (i : list N) (st : build) (x : xdec) (w : fs) : Prop := mkJ {
  J_inv : Inv (x_dec x);
  J_bound : d_bound (x_dec x) = 0;
  J_solid : Forall solid (d_nodes (x_dec x));
  J_len : length (x_nodes x) = length (d_nodes (x_dec x));
  J_root : last (map dn_name (d_nodes (x_dec x))) [] = [];
  J_flags : flags_ok (x_dec x) i;
  J_stage : match d_nodes (x_dec x), x_nodes x with
            | n :: dup, c :: up => exists F : N -> Prop, (forall j, F j -> j < f_next w) /\ stage (x_dec x) n dup c up st F w
            | _, _ => False
            end
}.

Lemma path_last d n dup : d_nodes d = n :: dup -> last (map dn_name (d_nodes d)) [] = [] -> last (current_path d) [] = dn_name n.
Proof.
  intros E H. unfold current_path. rewrite E in *. destruct dup as [|m dup]; [cbn in *; congruence|].
  cbn [removelast]. cbn [map rev]. apply last_last.
Qed.

Lemma stage_flags d i : flags_ok d i -> d_state d <> D_INIT -> replay_of env d = flags.
Proof. intros H Hn. unfold flags_ok in H. unfold replay_of. assert (E : d_ff d = archive_flags whole) by (destruct (d_state d); try congruence; apply H). rewrite E, Hflags. reflexivity. Qed.

Lemma J_put i st x w p x' : J (p ++ i) st x w -> xput x p = Ok x' -> J i st x' w.
Proof.
  intros [H1 H2 H3 H4 H5 H6 H7] H. unfold xput in H. destruct (decoder_put_data (x_dec x) p) as [d| | |] eqn:E; try discriminate. injection H as <-.
  pose proof (proj1 (put_Inv _ _ _ H1 E)) as HI. destruct x as [d0 xs]. cbn [x_dec x_nodes] in *.
  unfold decoder_put_data in E. destruct (N.eqb_spec (len p) 0) as [E0|E0]; [injection E as <-; apply len_zero_nil in E0; subst p; constructor; cbn [x_dec x_nodes]; auto|].
  destruct (d_eof _); [discriminate|]. injection E as <-. constructor; cbn [x_dec x_nodes]; auto.
  - unfold flags_ok in *. cbn [d_state d_step d_buf d_ff]. rewrite <- app_assoc. exact H6.
  - cbn [d_nodes]. destruct (d_nodes d0); [exact H7|]. destruct xs; [exact H7|]. destruct H7 as (F & F1 & F2). exists F. split; [exact F1|].
    unfold stage in *. cbn [d_state d_step d_buf]. rewrite takeN_app_le by apply H1. exact F2.
Qed.
Lemma J_eof i st x w : J i st x w -> J i st (xput_eof x) w.
Proof.
  intros [H1 H2 H3 H4 H5 H6 H7]. destruct x as [d xs]. unfold xput_eof. cbn [x_dec x_nodes] in *. constructor; cbn [x_dec x_nodes decoder_put_eof d_nodes d_bound]; auto.
  destruct H1; constructor; auto.
Qed.

Lemma payload_ret d n r d' : is_naked d = false -> step_payload d n = Ok (r, d') -> d_step d = 0 ->
  d_nodes d' = d_nodes d /\ d_ff d' = d_ff d /\ d_bound d' = d_bound d /\
  ((r = R_DONE_FILE /\ d_state d' = D_FINALIZE) \/ (r = R_PAYLOAD /\ d_state d' = d_state d) \/ (r = R_REQUEST /\ d_state d' = d_state d /\ d_step d' = 0)).
Proof.
  intros Hn. unfold step_payload. rewrite Hn.
  repeat match goal with |- (if ?c then _ else _) = _ -> _ => destruct c | |- match ?c with _ => _ end = _ -> _ => destruct c end; intros H H0; try discriminate; injection H as <- <-; cbn; auto 10.
Qed.
Lemma filename_ret d n r d' : step_filename d n = Ok (r, d') -> r = R_REQUEST \/ r = R_STEP.
Proof.
  unfold step_filename. destruct (parse_filename (d_buf d)); intros H; try discriminate; [injection H as <- _; auto| |].
  - destruct (_ <=? _); [discriminate|]. injection H as <- _. auto.
  - destruct (_ && _ && _)%bool; [discriminate|]. injection H as <- _. auto.
Qed.
Lemma observe_payload d n dup e : d_nodes d = n :: dup -> dn_entry n = Some e -> S_ISREG (m_mode (dt_meta e)) = true -> m_mode (dt_meta e) <> MODE_NONE -> d_state d = D_IN_PAYLOAD -> d_step d <= len (d_buf d) ->
  observe R_PAYLOAD d = map OByte (takeN (d_step d) (d_buf d)).
Proof.
  intros H1 H2 H3 H4 H5 H6. cbn [observe]. unfold get_payload. rewrite H1. unfold node_mode. rewrite H2. destruct (N.eqb_spec (m_mode (dt_meta e)) MODE_NONE) as [Q|Q]; [contradiction|]. rewrite H3. cbn [negb andb]. rewrite H5.
  destruct (N.eqb_spec (d_step d) 0) as [E|E]; [rewrite orb_true_r, E, takeN_0; reflexivity|]. rewrite orb_false_r.
  destruct (N.eqb_spec (len (d_buf d)) 0) as [E1|E1]; [lia|]. destruct (N.ltb_spec (len (d_buf d)) (d_step d)); [lia|]. reflexivity.
Qed.

Lemma decoder_part7 i st x w n dup c up (F : N -> Prop) c0 : J i st x w \/ True -> Inv (x_dec x) -> d_bound (x_dec x) = 0 -> Forall solid (d_nodes (x_dec x)) ->
  length (x_nodes x) = length (d_nodes (x_dec x)) -> last (map dn_name (d_nodes (x_dec x))) [] = [] -> flags_ok (x_dec x) i ->
  d_nodes (x_dec x) = n :: dup -> x_nodes x = c0 :: up -> (forall j, F j -> j < f_next w) -> ready (x_dec x) n dup c up st F w ->
  match decoder_step env (x_dec x) with
  | Ok (r, d') => feeds st (observe r d') <> Broken ->
      match r with
      | R_FINISHED => exists t, st = Complete t /\ hold F w b t
      | _ => J i (feeds st (observe r d')) (mkXdec d' (xtrack cfg (c :: up) (x_dec x) d')) w
      end
  | _ => True
  end.
Proof.
  intros _ HI Hb Hs Hl Hro Hff Hn Hxs HF Ht. set (d := x_dec x) in *.
  destruct (decoder_step env d) as [[r d']| | |] eqn:E; try exact I.
  pose proof (Inv_of_step _ _ _ _ HI E) as HI'.
  assert (He : d_state d <> D_EOF). { intros He. unfold ready, stage in Ht. rewrite He in Ht. exact Ht. }
  assert (Same : d_nodes d' = d_nodes d -> xtrack cfg (c :: up) d d' = c :: up).
  { intros En. unfold xtrack. rewrite En, N.ltb_irrefl. reflexivity. }
  assert (Same' : len (d_nodes d') = len (d_nodes d) -> xtrack cfg (c :: up) d d' = c :: up).
  { intros En. unfold xtrack. rewrite En, N.ltb_irrefl. reflexivity. }
  rewrite Hxs in Hl. cbn [length] in Hl.
  rewrite decoder_step_adv in E by assumption. rewrite Hn in E.
  assert (Hnk : is_naked (adv d) = false) by (apply not_naked; exact Hs).
  unfold step_node in E. cbn [adv d_state] in E. fold (adv d) in E.
  assert (EntryStep : forall (P : Prop), d_ff d = UINT64_MAX \/ d_ff d = archive_flags whole -> (d_state d = D_INIT \/ d_state d = D_ENTERED) ->
     (d_state d = D_INIT -> d_step d = 0 /\ d_buf d ++ i = whole) -> (d_state d = D_ENTERED -> d_ff d = archive_flags whole /\ archive_flags whole <> UINT64_MAX) ->
     step_entry env (adv d) n dup = Ok (r, d') ->
     d_bound d' = d_bound d /\ flags_ok d' i /\
     ((r = R_REQUEST /\ d_nodes d' = mkDnode (dn_name n) (dn_entry_offset n) None MODE_NONE :: dup /\ d_state d' = d_state d) \/
      (exists e, r = R_NEXT_FILE /\ entry_shape e /\ d_nodes d' = mkDnode (dn_name n) (dn_entry_offset n) (Some e) MODE_NONE :: dup /\ d_state d' = D_ENTRY))).
  { intros _ Hff0 Hst Hi He1 Hse. unfold step_entry in Hse. cbn [adv d_ff d_buf d_state] in Hse. fold (adv d) in Hse.
    destruct (parse_entry env (at_root (adv d)) (d_ff d) (dropN (d_step d) (d_buf d))) as [[|e|e o] ff] eqn:P; try discriminate;
    pose proof (entry_flags _ _ _ _ _ _ P I) as EF; injection Hse as <- <-; cbn [set_nodes set_ff enter adv d_bound d_nodes d_state d_ff d_step d_buf].
    - split; [reflexivity|]. split; [|left; auto]. unfold flags_ok. cbn [set_nodes set_ff enter adv d_bound d_nodes d_state d_ff d_step d_buf].
      destruct Hst as [Hst | Hst]; rewrite Hst.
      + destruct (Hi Hst) as [Hi1 Hi2]. rewrite Hi1, dropN_0 in *. split; [reflexivity|]. split; [exact Hi2|].
        destruct EF as [[_ ->] | (Q1 & -> & Q3 & Q4)]; [exact Hff0|]. right. unfold archive_flags. rewrite <- Hi2. symmetry. apply fld_ext. unfold ENTRY_SIZE in Q1. lia.
      + destruct (He1 Hst) as [Hf1 Hf2]. split; [|exact Hf2]. destruct EF as [[_ ->] | (Q1 & Q2 & Q3 & [Q4 | Q4])]; congruence.
    - split; [reflexivity|]. split; [|right; exists e; split; [reflexivity|split; [eapply parse_entry_shape; exact P|auto]]]. unfold flags_ok. cbn [set_nodes set_ff enter adv d_bound d_nodes d_state d_ff d_step d_buf].
      destruct EF as [[Q _] | (Q1 & Q2 & Q3 & Q4)]; [discriminate|].
      destruct Hst as [Hst | Hst].
      + destruct (Hi Hst) as [Hi1 Hi2]. rewrite Hi1, dropN_0 in *.
        assert (X : archive_flags whole = fld 16 (d_buf d)). { unfold archive_flags. rewrite <- Hi2. apply (fld_ext 16). unfold ENTRY_SIZE in Q1. lia. }
        rewrite X. split; [exact Q2|exact Q3].
      + destruct (He1 Hst) as [Hf1 Hf2]. split; [|exact Hf2]. destruct Q4 as [Q4 | Q4]; congruence. }
  unfold ready in Ht. unfold flags_ok in Hff.
  assert (Root' : forall off e m, last (map dn_name (mkDnode (dn_name n) off e m :: dup)) [] = []) by (intros; rewrite Hn in Hro; exact Hro).
  rewrite Hn in Hs. pose proof (Forall_inv Hs) as Hs1. pose proof (Forall_inv_tail Hs) as Hs2. rewrite Hn in Hl.
  destruct (d_state d) eqn:Es; try congruence.
  - (* INIT *)
    rewrite Hnk in E. unfold stage in Ht. rewrite Es in Ht. destruct Ht as (-> & -> & -> & Hfr). destruct Hff as (Hf1 & Hf2 & Hf3).
    destruct (EntryStep True Hf3 (or_introl eq_refl) (fun _ => conj Hf1 Hf2) ltac:(discriminate) E) as (E1 & Hff' & [(-> & E2 & E3) | (e & -> & E0 & E2 & E3)]); intros Hbr.
    + rewrite Same' by (rewrite E2, Hn; reflexivity). constructor; cbn [x_dec x_nodes]; auto; [congruence|rewrite E2; constructor; [apply solid_none|assumption]|rewrite E2; exact Hl|rewrite E2; apply Root'|].
      rewrite E2. exists F. split; [exact HF|]. unfold stage. rewrite E3. auto.
    + rewrite Same' by (rewrite E2, Hn; reflexivity).
      assert (Ob : observe R_NEXT_FILE d' = [OFile (current_path d') e]) by (cbn [observe]; rewrite E2; reflexivity). rewrite Ob in *.
      assert (Pl : last (current_path d') [] = dn_name n). { erewrite path_last; [|exact E2|rewrite E2; apply Root']. reflexivity. }
      rewrite feeds_file in * by reflexivity. rewrite Pl in *.
      constructor; cbn [x_dec x_nodes]; auto; [congruence| |rewrite E2; exact Hl|rewrite E2; apply Root'|].
      * rewrite E2. constructor; [|assumption]. split; [|reflexivity]. cbn. intros e1 Q. injection Q as <-. exact E0.
      * rewrite E2. exists F. split; [exact HF|]. unfold stage. rewrite E3. exists e, []. cbn [dn_entry dn_name]. split; [reflexivity|]. split; [reflexivity|]. split; [constructor|]. split; [reflexivity|]. left. auto.
  - (* ENTERED *)
    unfold stage in Ht. rewrite Es in Ht. destruct Ht as (frs & -> & Hm & Hu & -> & HL). destruct Hff as (Hf1 & Hf2).
    destruct (EntryStep True (or_intror Hf1) (or_intror eq_refl) ltac:(discriminate) (fun _ => conj Hf1 Hf2) E) as (E1 & Hff' & [(-> & E2 & E3) | (e & -> & E0 & E2 & E3)]); intros Hbr.
    + rewrite Same' by (rewrite E2, Hn; reflexivity). constructor; cbn [x_dec x_nodes]; auto; [congruence|rewrite E2; constructor; [apply solid_none|assumption]|rewrite E2; exact Hl|rewrite E2; apply Root'|].
      rewrite E2. exists F. split; [exact HF|]. unfold stage. rewrite E3. exists frs. auto.
    + rewrite Same' by (rewrite E2, Hn; reflexivity).
      assert (Ob : observe R_NEXT_FILE d' = [OFile (current_path d') e]) by (cbn [observe]; rewrite E2; reflexivity). rewrite Ob in *.
      assert (Pl : last (current_path d') [] = dn_name n). { erewrite path_last; [|exact E2|rewrite E2; apply Root']. reflexivity. }
      assert (Fi : fits (dn_name n) frs = true).
      { destruct (fits (dn_name n) frs) eqn:Q; [reflexivity|]. exfalso. apply Hbr. rewrite feeds_cons. cbn [feed]. rewrite Pl, Q. destruct frs; reflexivity. }
      rewrite feeds_file in * by (rewrite Pl; exact Fi). rewrite Pl in *.
      constructor; cbn [x_dec x_nodes]; auto; [congruence| |rewrite E2; exact Hl|rewrite E2; apply Root'|].
      * rewrite E2. constructor; [|assumption]. split; [|reflexivity]. cbn. intros e1 Q. injection Q as <-. exact E0.
      * rewrite E2. exists F. split; [exact HF|]. unfold stage. rewrite E3. exists e, frs. cbn [dn_entry dn_name]. auto 10.
  - (* ENTRY *)
    destruct Ht as (e & frs & He1 & -> & Hm & Ht). unfold node_mode in E. rewrite He1 in E.
    destruct (N.eqb_spec (m_mode (dt_meta e)) MODE_NONE) as [Hmn|Hmn]; [discriminate|].
    destruct (S_ISREG (m_mode (dt_meta e))) eqn:Tr.
    + assert (Nd : S_ISDIR (m_mode (dt_meta e)) = false) by (apply (type_excl _ S_IFREG S_IFDIR); [discriminate|exact Tr]).
      destruct Ht as [[Q _] | [_ Hp]]; [congruence|].
      apply payload_ret in E; [|exact Hnk|reflexivity]. destruct E as (E1 & E2 & E3 & E4). cbn [enter adv d_nodes d_ff d_bound d_state] in *.
      rewrite Same by congruence. intros Hbr.
      assert (Base : forall g, g = feeds (Building (mkFrame (dn_name n) e [] [] :: frs)) (observe r d') -> (exists F0 : N -> Prop, (forall j, F0 j -> j < f_next w) /\ stage d' n dup c up g F0 w) ->
        d_state d' <> D_INIT -> J i g (mkXdec d' (c :: up)) w).
      { intros g -> Hg Hni. constructor; cbn [x_dec x_nodes]; auto; [congruence|rewrite E1, Hn; exact Hs|rewrite E1, Hn; exact Hl|rewrite E1; exact Hro| |rewrite E1, Hn; exact Hg].
        unfold flags_ok. destruct (d_state d'); try congruence; rewrite E2; exact Hff. }
      destruct E4 as [(-> & E4) | [(-> & E4) | (-> & E4 & E5)]].
      * apply Base; [reflexivity| |congruence]. exists F. split; [exact HF|]. unfold stage. rewrite E4. exists (mkFrame (dn_name n) e [] []), frs. split; [reflexivity|]. split; [split; [reflexivity|exact He1]|]. auto.
      * rewrite (observe_payload d' n dup e) in * by (congruence || apply HI'). rewrite feeds_bytes in *. cbn [app] in *. apply Base; [reflexivity| |congruence].
        exists F. split; [exact HF|]. unfold stage. rewrite E4. exists e, [], frs. auto 10.
      * apply Base; [reflexivity| |congruence]. exists F. split; [exact HF|]. unfold stage. rewrite E4, E5, takeN_0. exists e, [], frs. auto 10.
    + destruct (S_ISDIR (m_mode (dt_meta e))) eqn:Td.
      * destruct Ht as [[_ HL] | [Q _]]; [|congruence].
        pose proof (filename_ret _ _ _ _ E) as Er. apply step_filename_shape in E. destruct E as (E1 & E2 & E3). cbn [enter adv d_nodes d_ff d_bound d_state] in *.
        assert (Ob : observe r d' = []) by (destruct Er as [-> | ->]; reflexivity). rewrite Ob. cbn [feeds fold_left].
        assert (Nf : forall P Q : Prop, Q -> match r with R_FINISHED => P | _ => Q end) by (destruct Er as [-> | ->]; auto). intros _. apply Nf. clear Nf.
        destruct E3 as [[E3 E4] | (name & off & E3 & E4)].
        -- rewrite Same by congruence. constructor; cbn [x_dec x_nodes]; auto; [congruence|rewrite E3, Hn; exact Hs|rewrite E3, Hn; exact Hl|rewrite E3; exact Hro| |].
           ++ unfold flags_ok. destruct E4 as [-> | ->]; rewrite E2; exact Hff.
           ++ rewrite E3, Hn. exists F. split; [exact HF|]. unfold stage. destruct E4 as [-> | ->]; eexists; (split; [reflexivity|]); (split; [|exact HL]); constructor; auto; split; auto.
        -- assert (Tk : xtrack cfg (c :: up) d d' = xnode0 :: mkXnode (x_fd c) (x_tmp c) (if c_delete cfg then x_dirents c ++ [name] else x_dirents c) :: up).
           { unfold xtrack. rewrite E3. destruct (N.ltb_spec (len (d_nodes d)) (len (mkDnode name off None MODE_NONE :: d_nodes d))) as [Q|Q]; [reflexivity|rewrite len_cons in Q; lia]. }
           rewrite Tk. constructor; cbn [x_dec x_nodes]; auto; [congruence|rewrite E3, Hn; constructor; [apply solid_none|exact Hs]|rewrite E3, Hn; cbn in *; congruence| | |].
           ++ rewrite E3, Hn in *. cbn [map] in Hro |- *. exact Hro.
           ++ unfold flags_ok. rewrite E4, E2. exact Hff.
           ++ rewrite E3, Hn. exists F. split; [exact HF|]. unfold stage. rewrite E4. cbn [dn_name]. eexists. split; [reflexivity|]. split; [constructor; [split; auto|exact Hm]|]. split; [discriminate|]. split; [reflexivity|].
              apply levels_name, HL.
      * destruct Ht as [[Q _] | [_ Hp]]; [congruence|]. injection E as <- <-. cbn [enter adv d_nodes] in *. rewrite Same by reflexivity. intros _. constructor; cbn [x_dec x_nodes enter adv d_nodes d_bound]; auto; rewrite ?Hn; auto.
        exists F. split; [exact HF|]. unfold stage. cbn [enter d_state]. exists (mkFrame (dn_name n) e [] []), frs. split; [reflexivity|]. split; [split; [reflexivity|exact He1]|]. auto.
  - (* IN_PAYLOAD *)
    destruct Ht as (e & data & frs & He1 & Tr & -> & Hm & Hp).
    assert (Hmn : m_mode (dt_meta e) <> MODE_NONE).
    { assert (Hh := I_head _ HI). unfold head_ok in Hh. rewrite Hn, Es in Hh. destruct Hh as [Q | (e1 & s & Q1 & _ & Q2 & _)]; [|congruence]. exfalso. rewrite (not_naked d) in Q; [discriminate|]. rewrite Hn. exact Hs. }
    apply payload_ret in E; [|exact Hnk|reflexivity]. destruct E as (E1 & E2 & E3 & E4). cbn [enter adv d_nodes d_ff d_bound d_state] in *.
    rewrite Same by congruence. intros Hbr. rewrite Es in E4.
    assert (Base : forall g, g = feeds (Building (mkFrame (dn_name n) e [] data :: frs)) (observe r d') -> (exists F0 : N -> Prop, (forall j, F0 j -> j < f_next w) /\ stage d' n dup c up g F0 w) ->
      d_state d' <> D_INIT -> J i g (mkXdec d' (c :: up)) w).
    { intros g -> Hg Hni. constructor; cbn [x_dec x_nodes]; auto; [congruence|rewrite E1, Hn; exact Hs|rewrite E1, Hn; exact Hl|rewrite E1; exact Hro| |rewrite E1, Hn; exact Hg].
      unfold flags_ok. destruct (d_state d'); try congruence; rewrite E2; exact Hff. }
    destruct E4 as [(-> & E4) | [(-> & E4) | (-> & E4 & E5)]].
    + apply Base; [reflexivity| |congruence]. exists F. split; [exact HF|]. unfold stage. rewrite E4. exists (mkFrame (dn_name n) e [] data), frs. split; [reflexivity|]. split; [split; [reflexivity|exact He1]|]. auto.
    + rewrite (observe_payload d' n dup e) in * by (congruence || apply HI'). rewrite feeds_bytes in *. apply Base; [reflexivity| |congruence].
      exists F. split; [exact HF|]. unfold stage. rewrite E4. exists e, data, frs. auto 10.
    + apply Base; [reflexivity| |congruence]. exists F. split; [exact HF|]. unfold stage. rewrite E4, E5, takeN_0. exists e, data, frs. rewrite app_nil_r. auto 10.
  - (* IN_DIRECTORY *)
    destruct (_ =? MODE_NONE); [discriminate|]. destruct (negb _); [discriminate|].
    unfold stage in Ht. rewrite Es in Ht. destruct Ht as (frs & -> & Hm & HL).
    pose proof (filename_ret _ _ _ _ E) as Er. apply step_filename_shape in E. destruct E as (E1 & E2 & E3). cbn [adv d_nodes d_ff d_bound d_state] in *.
    assert (Ob : observe r d' = []) by (destruct Er as [-> | ->]; reflexivity). rewrite Ob. cbn [feeds fold_left].
    assert (Nf : forall P Q : Prop, Q -> match r with R_FINISHED => P | _ => Q end) by (destruct Er as [-> | ->]; auto). intros _. apply Nf. clear Nf.
    destruct E3 as [[E3 E4] | (name & off & E3 & E4)].
    + rewrite Same by congruence. rewrite Es in E4. constructor; cbn [x_dec x_nodes]; auto; [congruence|rewrite E3, Hn; exact Hs|rewrite E3, Hn; exact Hl|rewrite E3; exact Hro| |].
      * unfold flags_ok. destruct E4 as [-> | ->]; rewrite E2; exact Hff.
      * rewrite E3, Hn. exists F. split; [exact HF|]. unfold stage. destruct E4 as [-> | ->]; exists frs; auto.
    + assert (Tk : xtrack cfg (c :: up) d d' = xnode0 :: mkXnode (x_fd c) (x_tmp c) (if c_delete cfg then x_dirents c ++ [name] else x_dirents c) :: up).
      { unfold xtrack. rewrite E3. destruct (N.ltb_spec (len (d_nodes d)) (len (mkDnode name off None MODE_NONE :: d_nodes d))) as [Q|Q]; [reflexivity|rewrite len_cons in Q; lia]. }
      rewrite Tk. constructor; cbn [x_dec x_nodes]; auto; [congruence|rewrite E3, Hn; constructor; [apply solid_none|exact Hs]|rewrite E3, Hn; cbn in *; congruence| | |].
      * rewrite E3, Hn in *. cbn [map] in Hro |- *. exact Hro.
      * unfold flags_ok. rewrite E4, E2. exact Hff.
      * rewrite E3, Hn. exists F. split; [exact HF|]. unfold stage. rewrite E4. cbn [dn_name]. exists frs. split; [reflexivity|]. split; [exact Hm|]. split; [discriminate|]. split; [reflexivity|].
        apply levels_name, HL.
  - (* GOODBYE *)
    destruct (_ =? MODE_NONE); [discriminate|]. destruct (negb _); [discriminate|].
    injection E as <- <-. cbn [enter adv d_nodes] in *. rewrite Same by reflexivity. intros _.
    unfold stage in Ht. rewrite Es in Ht. destruct Ht as (frs & -> & Hm & HL). destruct frs as [|f frs]; [inversion HL|]. inversion Hm as [|? ? ? ? Hm1 Hm2]; subst.
    constructor; cbn [x_dec x_nodes enter adv d_nodes d_bound]; auto; rewrite ?Hn; auto.
    exists F. split; [exact HF|]. unfold stage. cbn [enter d_state]. exists f, frs. split; [reflexivity|]. auto.
  - (* FINALIZE *)
    cbn [adv d_bound] in E. destruct Ht as (f & frs & -> & Hm1 & Hm2 & Ht). destruct (N.leb_spec (len dup) (d_bound d)) as [Q | Q].
    + injection E as <- <-. intros _. rewrite Hb in Q. assert (dup = []) by (apply len_zero_nil; lia). subst dup. inversion Hm2; subst. destruct up as [|? ?]; [|contradiction].
      exists (tree_of f). auto.
    + injection E as <- <-. intros _. assert (Tk : xtrack cfg (c :: up) d (enter (set_nodes (adv d) dup) D_IN_DIRECTORY 0) = up).
      { unfold xtrack. cbn [enter set_nodes d_nodes]. rewrite Hn, len_cons.
        destruct (N.ltb_spec (1 + len dup) (len dup)); [lia|]. destruct (N.ltb_spec (len dup) (1 + len dup)); [|lia]. reflexivity. }
      rewrite Tk. cbn [length] in Hl. destruct dup as [|n2 dup]; [change (@len dnode []) with 0 in Q; lia|].
      destruct up as [|c2 up]; [discriminate|]. destruct frs as [|q frs]; [contradiction|]. inversion Hm2 as [|? ? ? ? Hm3 Hm4]; subst.
      constructor; cbn [x_dec x_nodes enter set_nodes adv d_nodes d_bound]; [exact HI'|exact Hb|exact Hs2|cbn [length] in *; congruence|rewrite Hn in Hro; exact Hro|exact Hff|].
      exists F. split; [exact HF|]. unfold stage. cbn [enter d_state]. exists (add_kid q (fr_name f) (tree_of f) :: frs). split; [reflexivity|]. split; [|exact Ht]. constructor; [exact Hm3|exact Hm4].
Qed.
End Steps.
