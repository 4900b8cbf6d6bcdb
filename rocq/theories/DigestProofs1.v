(** What a step of the decoder does to the buffer and the flags. *)
From Verif Require Import Base FeatureFlags ArchiveBase Decoder DecoderSpec DecoderProofs DecoderProofs2 DecoderProofs3 DecoderProofs4
  Encoder EncoderSpec Digest DigestSpec.
Local Open Scope N_scope.
Local Arguments fld : simpl never.
Local Arguments body : simpl never.

(** ** The flags *)
Lemma validate_entry_ff env ff p e ff' : validate_format_entry env ff p = (Some e, ff') ->
  ff' = fld 16 p /\ ff' <> UINT64_MAX /\ (ff = UINT64_MAX \/ ff = ff').
Proof.
  unfold validate_format_entry, validate_feature_flags. cbn [pe_ff].
  destruct (N.eqb_spec (fld 16 p) UINT64_MAX) as [E0 | E0]; [discriminate|].
  destruct (_ && _)%bool; [discriminate|].
  destruct (match feature_flags_are_normalized (fld 16 p) with
          | Ok b => negb b | Err e => negb (errno_eqb e EOPNOTSUPP) | _ => true end); [discriminate|].
  destruct (N.eqb_spec ff UINT64_MAX) as [E | E].
  - destruct (match determine_replay_feature_flags _ _ with Ok _ => true | _ => false end); cbn [negb]; [|discriminate].
    repeat match goal with |- (if ?c then _ else _) = _ -> _ => destruct c; [discriminate|] end.
    intros Q. injection Q as _ <-. auto.
  - destruct (N.eqb_spec ff (fld 16 p)) as [E2 | E2]; cbn [negb]; [|discriminate].
    repeat match goal with |- (if ?c then _ else _) = _ -> _ => destruct c; [discriminate|] end.
    intros Q. injection Q as _ <-. subst ff. auto.
Qed.

Lemma parse_ff env ar ff p r ff' : parse_entry env ar ff p = (r, ff') -> (forall e, r <> RErr e) ->
  (r = RReq /\ ff' = ff) \/
  (ff' = fld 16 p /\ ff' <> UINT64_MAX /\ 24 <= len p /\ (ff = UINT64_MAX \/ ff = ff')).
Proof.
  unfold parse_entry. cbn [parse_loop]. intros Hp Hr.
  pose proof (parse_obj_inv env ff pacc0 p) as I.
  destruct (parse_obj env ff pacc0 p) as [[|e|a' l|a' c w] ff1] eqn:E; cbn [obj_result] in I.
  - left. split; congruence.
  - exfalso. eapply Hr. symmetry. injection Hp as Q _. exact Q.
  - right. destruct I as [[I1 I2] [(I3 & I4 & I5 & I6 & en & I7 & I8 & I9) | (_ & I4 & _)]]; [|cbn in I4; congruence].
    apply validate_entry_ff in I7. destruct I7 as (V1 & V2 & V3).
    apply parse_loop_ff in Hp; [|congruence]. subst ff1. repeat split; auto. unfold ENTRY_SIZE in I4. lia.
  - destruct I as (_ & _ & _ & I & _). cbn in I. congruence.
Qed.

(** ** The entry is in the bytes parsed *)
Lemma if_req (c : bool) (x y : pstep * N) (P : Prop) : (c = true -> fst x = PReq -> P) -> (c = false -> fst y = PReq -> P) ->
  fst (if c then x else y) = PReq -> P.
Proof. destruct c; auto. Qed.

Lemma parse_obj_req env ff a p : fst (parse_obj env ff a p) = PReq -> len p < HDR \/ (len p < fld 0 p /\ fld 8 p <> F_PAYLOAD).
Proof.
  unfold parse_obj.
  destruct (N.ltb_spec (len p) HDR) as [Q | Q]; [auto|].
  destruct (fld 0 p <? HDR); [discriminate|]. destruct (fld 0 p =? UINT64_MAX); [discriminate|].
  destruct (N.leb_spec (fld 0 p) (len p)) as [C | C]; cbn [negb].
  - intros E. exfalso. revert E.
    destruct (fld 8 p =? F_ENTRY).
    { destruct (some _); [discriminate|]. destruct (negb _); [discriminate|].
      destruct (validate_format_entry env ff p) as [[e|] ff1]; [|discriminate]. destruct (negb _); discriminate. }
    destruct (pa_entry a) as [e|]; [|discriminate].
    repeat (match goal with
            | |- fst (if ?c then _ else _) = _ -> _ => destruct c; cbn [negb orb andb]; try discriminate
            | |- fst (match ?v with _ => _ end) = _ -> _ => destruct v; try discriminate
            end).
  - intros E. right. split; [assumption|]. intros T. revert E. rewrite T.
    change (F_PAYLOAD =? F_ENTRY) with false. cbn iota.
    destruct (pa_entry a) as [e|]; [|discriminate].
    repeat (match goal with |- context [F_PAYLOAD =? ?t] => first
        [ change (F_PAYLOAD =? t) with true | change (F_PAYLOAD =? t) with false ]; cbn [orb andb]; cbn iota end).
    destruct (negb (S_ISREG _)); discriminate.
Qed.

Lemma parse_obj_size env ff a p : match fst (parse_obj env ff a p) with
  | PCont _ l => l = fld 0 p
  | PDone _ c w => match w with PFilename | PGoodbye => True | PPayload _ => c = HDR /\ fld 8 p = F_PAYLOAD | _ => c = fld 0 p end
  | _ => True end.
Proof.
  unfold parse_obj.
  repeat (match goal with
          | |- context [fst (if ?c then _ else _)] => let E := fresh "E" in destruct c eqn:E; cbn [fst]; try exact I
          | |- context [fst (match ?v with _ => _ end)] => destruct v; cbn [fst]; try exact I
          end); try reflexivity.
  split; [reflexivity|]. apply N.eqb_eq. assumption.
Qed.

Lemma parse_loop_mono n : forall env ar ff a p off e o ff', parse_loop n env ar ff a p off = (ROk e o, ff') -> off <= o.
Proof.
  induction n as [|n IH]; cbn [parse_loop]; intros env ar ff a p off e o ff' H; [discriminate|].
  destruct (parse_obj env ff a p) as [[|e'|a' l|a' c w] ff1] eqn:E; try discriminate.
  - apply IH in H. lia.
  - destruct (pa_entry a'); [|discriminate]. destruct (parse_checks _ _ _ _ _); [|discriminate].
    assert (off + c = o) by congruence. lia.
Qed.

(** The bytes of an entry determine it. *)
Lemma parse_loop_same n : forall env ar ff a q x off e o ff1 m ar' x' e' ff2,
  parse_loop n env ar ff a (q ++ x) off = (ROk e o, ff1) -> parse_loop m env ar' ff a (q ++ x') off = (ROk e' o, ff2) ->
  len q = o - off -> e = e'.
Proof.
  induction n as [|n IH]; intros env ar ff a q x off e o ff1 m ar' x' e' ff2 H H' Hq; cbn [parse_loop] in H; [discriminate|].
  destruct m as [|m]; [discriminate|]. cbn [parse_loop] in H'.
  pose proof (parse_obj_inv env ff a (q ++ x)) as I. pose proof (parse_obj_size env ff a (q ++ x)) as S.
  pose proof (parse_obj_req env ff a q) as R. pose proof (parse_obj_ext env ff a q x) as X. pose proof (parse_obj_ext env ff a q x') as X'.
  destruct (parse_obj env ff a (q ++ x)) as [[|e0|a' l|a' c w] f1] eqn:E; cbn [obj_result fst] in I, S; try discriminate.
  - destruct I as [[I1 I2] _]. pose proof (parse_loop_mono _ _ _ _ _ _ _ _ _ _ H) as M.
    assert (Q : l <= len q) by lia.
    assert (F : fld 0 q = l). { rewrite S. symmetry. apply fld_ext. unfold HDR in I1. lia. }
    assert (N0 : fst (parse_obj env ff a q) <> PReq). { intros Z. apply R in Z. destruct Z as [Z | [Z _]]; lia. }
    rewrite (X' N0), <- (X N0) in H'. rewrite dropN_app_le in H, H' by lia.
    eapply IH; [exact H|exact H'|]. rewrite len_dropN. lia.
  - destruct I as (Ia & I1 & I0 & I2 & I3). subst a' f1.
    destruct (pa_entry a) as [en|] eqn:Ea; [|congruence].
    destruct (parse_checks ar ff a en w) eqn:Ec; [|discriminate].
    assert (Ee : parse_dentry a en w = e) by congruence. assert (Eo : off + c = o) by congruence.
    assert (W : c = 0 \/ (HDR <= len q /\ (fld 0 q = len q \/ fld 8 q = F_PAYLOAD))).
    { destruct w; try (left; exact I3); right.
      all: try (destruct S as [S0 S]; split; [lia|]; right; rewrite <- S; symmetry; apply fld_ext; unfold HDR in S0; lia).
      all: split; [lia|]; left; rewrite fld_ext in S by (unfold HDR in I3; lia); lia. }
    destruct W as [W | [W1 W2]].
    + assert (q = []) by (apply len_zero_nil; lia). subst q. cbn [app] in *.
      pose proof (parse_obj_inv env ff a x') as I'.
      destruct (parse_obj env ff a x') as [[|e0|a2 l|a2 c2 w2] f2] eqn:E2; cbn [obj_result] in I'; try discriminate.
      * exfalso. destruct I' as [[I' _] _]. pose proof (parse_loop_mono _ _ _ _ _ _ _ _ _ _ H'). unfold HDR in I'. lia.
      * destruct I' as (Ia & _ & I0 & _ & I4). subst a2 f2. rewrite Ea in H'. destruct (parse_checks ar' ff a en w2); [|discriminate].
        assert (Ee' : parse_dentry a en w2 = e') by congruence. assert (Eo' : off + c2 = o) by congruence.
        rewrite <- Ee, <- Ee'. unfold HDR in I3, I4.
        destruct w, w2; try lia; reflexivity.
    + assert (N0 : fst (parse_obj env ff a q) <> PReq).
      { intros Z. apply R in Z. destruct Z as [Z | [Z Z2]]; [lia|]. destruct W2; [lia|congruence]. }
      rewrite (X' N0), <- (X N0), Ea in H'. destruct (parse_checks ar' ff a en w); [|discriminate]. congruence.
Qed.

(** If it ends with the header of a payload, they also determine where it ends. *)
Lemma parse_loop_len n : forall env ar ff a q x off e o ff1 m ar' x' e' o' ff2,
  parse_loop n env ar ff a (q ++ x) off = (ROk e o, ff1) -> parse_loop m env ar' ff a (q ++ x') off = (ROk e' o', ff2) ->
  len q = o - off -> dt_size e <> None -> o' = o.
Proof.
  induction n as [|n IH]; intros env ar ff a q x off e o ff1 m ar' x' e' o' ff2 H H' Hq Hz; cbn [parse_loop] in H; [discriminate|].
  destruct m as [|m]; [discriminate|]. cbn [parse_loop] in H'.
  pose proof (parse_obj_inv env ff a (q ++ x)) as I. pose proof (parse_obj_size env ff a (q ++ x)) as S.
  pose proof (parse_obj_req env ff a q) as R. pose proof (parse_obj_ext env ff a q x) as X. pose proof (parse_obj_ext env ff a q x') as X'.
  destruct (parse_obj env ff a (q ++ x)) as [[|e0|a' l|a' c w] f1] eqn:E; cbn [obj_result fst] in I, S; try discriminate.
  - destruct I as [[I1 I2] _]. pose proof (parse_loop_mono _ _ _ _ _ _ _ _ _ _ H) as M.
    assert (Q : l <= len q) by lia.
    assert (F : fld 0 q = l). { rewrite S. symmetry. apply fld_ext. unfold HDR in I1. lia. }
    assert (N0 : fst (parse_obj env ff a q) <> PReq). { intros Z. apply R in Z. destruct Z as [Z | [Z _]]; lia. }
    rewrite (X' N0), <- (X N0) in H'. rewrite dropN_app_le in H, H' by lia.
    eapply IH; [exact H|exact H'| |exact Hz]. rewrite len_dropN. lia.
  - destruct I as (Ia & I1 & I0 & I2 & I3). subst a' f1.
    destruct (pa_entry a) as [en|] eqn:Ea; [|congruence].
    destruct (parse_checks ar ff a en w) eqn:Ec; [|discriminate].
    assert (Ee : parse_dentry a en w = e) by congruence. assert (Eo : off + c = o) by congruence.
    assert (W : exists s, w = PPayload s). { rewrite <- Ee in Hz. unfold parse_dentry in Hz. destruct (opt_or (pa_acl_default a) _) as [[[? ?] ?] ?]. destruct w; cbn in Hz; try congruence; eauto. }
    destruct W as [sz ->]. destruct S as [S0 S].
    assert (W1 : HDR <= len q) by lia. assert (W2 : fld 8 q = F_PAYLOAD). { rewrite <- S. symmetry. apply fld_ext. unfold HDR in W1. lia. }
    assert (N0 : fst (parse_obj env ff a q) <> PReq).
    { intros Z. apply R in Z. destruct Z as [Z | [Z Z2]]; [lia|]. congruence. }
    rewrite (X' N0), <- (X N0), Ea in H'. destruct (parse_checks ar' ff a en (PPayload sz)); [|discriminate]. congruence.
Qed.

(** [ent] is how the file with the meta data [e] is stored. *)
Definition parses_to (env : denv) (ff : N) (ent : list N) (e : dentry) : Prop :=
  exists ar x ff', parse_entry env ar ff (ent ++ x) = (ROk e (len ent), ff').

Lemma parses_to_same env ff ent e e' : parses_to env ff ent e -> parses_to env ff ent e' -> e = e'.
Proof.
  intros (ar & x & f1 & P) (ar' & x' & f2 & P'). unfold parse_entry in *.
  eapply parse_loop_same; [exact P|exact P'|]. lia.
Qed.

(** And the contents are [data]. *)
Definition describes (env : denv) (ff : N) (ent : list N) (e : dentry) (data : list N) : Prop :=
  parses_to env ff ent e /\ ff <> UINT64_MAX /\ (data = [] \/ dt_size e <> None).

Lemma describes_flags env ff ent e data : describes env ff ent e data -> fld 16 (ent ++ data) = ff.
Proof.
  intros ((ar & x & f1 & P) & F & _). assert (L := parse_entry_ok _ _ _ _ _ _ _ P). destruct L as (_ & _ & L).
  apply parse_ff in P; [|discriminate]. destruct P as [[P _] | (P1 & _ & _ & [P2 | P2])]; [discriminate|congruence|].
  rewrite P2, P1. unfold ENTRY_SIZE in L. rewrite !fld_ext by lia. reflexivity.
Qed.
Lemma describes_shorter env ff ent e data ent' e' data' : describes env ff ent e data -> describes env ff ent' e' data' ->
  ent ++ data = ent' ++ data' -> len ent < len ent' -> False.
Proof.
  intros ((ar & x & f1 & P) & _ & D) ((ar' & x' & f1' & P') & _ & _) E L.
  assert (T : ent' = ent ++ dropN (len ent) ent').
  { rewrite <- (takeN_dropN (len ent) ent') at 1. f_equal.
    apply (f_equal (takeN (len ent))) in E. rewrite takeN_app_exact in E by reflexivity. rewrite takeN_app_le in E by (clear -L; lia). congruence. }
  destruct D as [D | D].
  - apply (f_equal len) in E. rewrite !len_app, D in E. change (len (@nil N)) with 0 in E. clear -E L. lia.
  - rewrite T in P'. rewrite <- app_assoc in P'. unfold parse_entry in *. cut (len (ent ++ dropN (len ent) ent') = len ent).
    + rewrite <- T. clear -L. lia.
    + eapply parse_loop_len; [exact P|exact P'| |exact D]. rewrite N.sub_0_r. reflexivity.
Qed.
(** How a file is stored, and its contents determine it. *)
Lemma describes_same env ff ent e data ff' ent' e' data' : describes env ff ent e data -> describes env ff' ent' e' data' ->
  ent ++ data = ent' ++ data' -> e = e' /\ data = data'.
Proof.
  intros D D' E. assert (ff' = ff). { rewrite <- (describes_flags _ _ _ _ _ D), <- (describes_flags _ _ _ _ _ D'), E. reflexivity. } subst ff'.
  assert (L : len ent = len ent').
  { destruct (N.lt_trichotomy (len ent) (len ent')) as [L | [L | L]]; [exfalso; exact (describes_shorter _ _ _ _ _ _ _ _ D D' E L)|exact L|].
    exfalso. exact (describes_shorter _ _ _ _ _ _ _ _ D' D (eq_sym E) L). }
  assert (ent = ent').
  { apply (f_equal (takeN (len ent))) in E. rewrite takeN_app_exact in E by reflexivity. rewrite L, takeN_app_exact in E by reflexivity. exact E. }
  subst ent'. split; [exact (parses_to_same _ _ _ _ _ (proj1 D) (proj1 D'))|]. apply app_inv_head in E. exact E.
Qed.

(** ** A step *)
Definition shape (env : denv) (d : dec) (x : dret) (d' : dec) : Prop :=
  d_buf d' = dropN (d_step d) (d_buf d) /\
  match x with
  | R_NEXT_FILE => (d_state d = D_INIT /\ is_naked d = false \/ d_state d = D_ENTERED) /\ d_state d' = D_ENTRY /\
      exists n' up e ar, d_nodes d' = n' :: up /\ dn_entry n' = Some e /\ d_step d' <= len (d_buf d') /\ (d_state d = D_INIT -> ar = true) /\
        parse_entry env ar (d_ff d) (d_buf d') = (ROk e (d_step d'), d_ff d')
  | R_STEP => d_ff d' = d_ff d /\
      match d_state d' with
      | D_ENTERED | D_GOODBYE => (d_state d = D_ENTRY /\ d_nodes d <> [] \/ d_state d = D_IN_DIRECTORY) /\
          exists n up, d_nodes d = n :: up /\ S_ISDIR (node_mode n) = true /\
            (d_nodes d' = n :: up \/ exists m, d_nodes d' = m :: n :: up)
      | D_IN_DIRECTORY => d_state d = D_FINALIZE /\ d_step d' = 0
      | _ => False
      end
  | R_PAYLOAD => d_ff d' = d_ff d /\ d_nodes d' = d_nodes d /\ d_state d' = D_IN_PAYLOAD /\ 0 < d_step d' /\ (exists n up, d_nodes d = n :: up /\ S_ISDIR (node_mode n) = false /\ get_payload d' = Ok (takeN (d_step d') (d_buf d'))) /\
      (d_state d = D_INIT /\ is_naked d = true \/ d_state d = D_ENTRY \/ d_state d = D_IN_PAYLOAD)
  | R_DONE_FILE => d_ff d' = d_ff d /\ d_nodes d' = d_nodes d /\ d_state d' = D_FINALIZE /\ d_step d' = 0 /\
      (d_state d = D_GOODBYE \/ d_state d = D_ENTRY /\ (exists n up, d_nodes d = n :: up /\ S_ISDIR (node_mode n) = false) \/
       d_state d = D_IN_PAYLOAD /\ is_naked d = false)
  | R_REQUEST => d_step d' = 0 /\
      (d_state d = D_INIT /\ is_naked d = false /\ d_state d' = D_INIT /\
         (exists ar n', parse_entry env ar (d_ff d) (d_buf d') = (RReq, d_ff d') /\ d_nodes d' = n' :: tl (d_nodes d) /\ dn_mode n' = MODE_NONE /\ dn_entry n' = None) \/
       d_state d = D_ENTERED /\ d_state d' = D_ENTERED /\
         (exists ar n', parse_entry env ar (d_ff d) (d_buf d') = (RReq, d_ff d') /\ d_nodes d' = n' :: tl (d_nodes d) /\ dn_mode n' = MODE_NONE /\ dn_entry n' = None) \/
       d_ff d' = d_ff d /\ d_nodes d' = d_nodes d /\
         (d_state d = D_INIT /\ is_naked d = true /\ d_state d' = D_IN_PAYLOAD \/
          d_state d = D_ENTRY /\ d_state d' = D_IN_PAYLOAD /\ (exists n up, d_nodes d = n :: up /\ S_ISDIR (node_mode n) = false) \/
          d_state d = D_IN_PAYLOAD /\ d_state d' = D_IN_PAYLOAD \/
          d_state d = D_ENTRY /\ d_state d' = D_IN_DIRECTORY /\ (exists n up, d_nodes d = n :: up /\ S_ISDIR (node_mode n) = true) \/
          d_state d = D_IN_DIRECTORY /\ d_state d' = D_IN_DIRECTORY))
  | R_FINISHED => d_ff d' = d_ff d /\ d_nodes d' = d_nodes d /\ d_state d' = D_EOF /\ d_step d' = 0 /\
      (d_state d = D_FINALIZE \/ d_state d = D_INIT /\ is_naked d = true \/ d_state d = D_IN_PAYLOAD /\ is_naked d = true)
  end.

Lemma payload_shape env d d1 n up x d' : d_nodes d1 = n :: up -> d_nodes d = d_nodes d1 -> d_ff d1 = d_ff d -> d_buf d1 = dropN (d_step d) (d_buf d) ->
  d_step d1 = 0 -> d_state d1 = D_IN_PAYLOAD ->
  (d_state d = D_INIT /\ is_naked d = true \/ d_state d = D_ENTRY \/ d_state d = D_IN_PAYLOAD) ->
  (d_state d = D_ENTRY -> is_naked d = false) ->
  step_payload d1 n = Ok (x, d') -> shape env d x d'.
Proof.
  intros Hn Hns Hff Hb H0 Hs Hd Hp. unfold step_payload.
  destruct (N.eqb_spec (node_mode n) MODE_NONE) as [Mn | Mn]; [discriminate|]. destruct (S_ISREG (node_mode n) || S_ISBLK (node_mode n))%bool eqn:Rg; [cbn [negb]|discriminate].
  assert (ND : S_ISDIR (node_mode n) = false).
  { destruct (S_ISDIR (node_mode n)) eqn:D; [|reflexivity]. exfalso. apply Bool.orb_true_iff in Rg.
    unfold S_ISDIR, S_ISREG, S_ISBLK, is_type in *. destruct Rg as [Rg | Rg]; apply N.eqb_eq in Rg, D; rewrite Rg in D; discriminate. }
  assert (K : is_naked d1 = is_naked d). { unfold is_naked. rewrite Hns. reflexivity. }
  assert (DIR : exists n up, d_nodes d = n :: up /\ S_ISDIR (node_mode n) = false) by (exists n, up; rewrite Hns; auto).
  assert (PAY : forall k, 0 < k -> 0 < len (d_buf d1) -> k <= len (d_buf d1) ->
     let d' := mkDec (d_state d1) (d_ff d1) (d_nodes d1) (d_buf d1) (d_eof d1) (d_aoff d1) (d_poff d1) k (d_bound d1) in
     exists n up, d_nodes d = n :: up /\ S_ISDIR (node_mode n) = false /\ get_payload d' = Ok (takeN k (d_buf d1))).
  { intros k K1 K2 K3. exists n, up. rewrite Hns. repeat split; auto. unfold get_payload. cbn [d_nodes d_state d_buf d_step]. rewrite Hn.
    destruct (N.eqb_spec (node_mode n) MODE_NONE); [congruence|]. rewrite <- Bool.negb_orb, Rg, Hs. cbn [negb].
    destruct (N.eqb_spec (len (d_buf d1)) 0); [lia|]. destruct (N.eqb_spec k 0); [lia|]. cbn [orb].
    destruct (N.ltb_spec (len (d_buf d1)) k); [lia|]. reflexivity. }
  assert (DONE : is_naked d = false -> d_state d <> D_INIT ->
     shape env d R_DONE_FILE (enter d1 D_FINALIZE 0)).
  { intros Nk Ni. split; [exact Hb|]. cbn [enter d_ff d_nodes d_state d_step]. repeat split; auto.
    destruct Hd as [[Q _] | [Q | Q]]; [congruence| |]; right; [left|right]; split; auto. }
  destruct (match dn_entry n with Some e => dt_size e | None => None end) as [s|] eqn:Sz.
  - destruct (N.ltb_spec s (d_poff d1)); [discriminate|].
    assert (Nk : is_naked d = false).
    { rewrite <- K. unfold is_naked. rewrite Hn. destruct up; [|reflexivity]. destruct (dn_entry n); [reflexivity|discriminate]. }
    destruct (N.eqb_spec (d_poff d1) s) as [Eq | Eq].
    { intros Z; injection Z as <- <-. apply DONE; [exact Nk|]. intros Q. destruct Hd as [[_ Q2] | [Q2 | Q2]]; congruence. }
    destruct (N.ltb_spec 0 (len (d_buf d1))) as [L | L].
    { intros Z; injection Z as <- <-. split; [exact Hb|]. cbn [d_ff d_nodes d_state d_step]. repeat split; auto; [lia|]. apply PAY; lia. }
    destruct (d_eof d1); [discriminate|]. intros Z; injection Z as <- <-. split; [exact Hb|]. split; [exact H0|]. right; right.
    split; [exact Hff|]. split; [congruence|].
    destruct Hd as [[Q Q2] | [Q | Q]]; auto 10.
  - destruct (N.ltb_spec 0 (len (d_buf d1))) as [L | L].
    { intros Z; injection Z as <- <-. split; [exact Hb|]. cbn [d_ff d_nodes d_state d_step]. repeat split; auto. apply PAY; lia. }
    destruct (d_eof d1).
    + destruct (negb _); [discriminate|]. destruct (is_naked d1) eqn:K1; intros Z; injection Z as <- <-.
      * split; [exact Hb|]. cbn [enter d_ff d_nodes d_state d_step]. repeat split; auto.
        destruct Hd as [[Q Q2] | [Q | Q]]; [auto|exfalso; specialize (Hp Q); congruence|right; right; split; congruence].
      * apply DONE; [congruence|]. intros Q. destruct Hd as [[_ Q2] | [Q2 | Q2]]; congruence.
    + intros Z; injection Z as <- <-. split; [exact Hb|]. split; [exact H0|]. right; right.
      split; [exact Hff|]. split; [congruence|].
      destruct Hd as [[Q Q2] | [Q | Q]]; auto 10.
Qed.

Lemma filename_shape env d d1 n up x d' : d_nodes d1 = n :: up -> d_nodes d = d_nodes d1 -> d_ff d1 = d_ff d -> d_buf d1 = dropN (d_step d) (d_buf d) ->
  d_step d1 = 0 -> d_state d1 = D_IN_DIRECTORY -> S_ISDIR (node_mode n) = true ->
  (d_state d = D_ENTRY \/ d_state d = D_IN_DIRECTORY) ->
  step_filename d1 n = Ok (x, d') -> shape env d x d'.
Proof.
  intros Hn Hns Hff Hb H0 Hs Hdir Hd. unfold step_filename.
  assert (Hd' : d_state d = D_ENTRY /\ d_nodes d <> [] \/ d_state d = D_IN_DIRECTORY).
  { destruct Hd as [Q | Q]; [left; split; [exact Q|congruence]|auto]. }
  destruct (parse_filename (d_buf d1)) as [|e|name l|o l]; [|discriminate| |].
  - intros Z; injection Z as <- <-. split; [exact Hb|]. split; [exact H0|]. right; right.
    split; [exact Hff|]. split; [congruence|]. destruct Hd as [Q | Q]; [|auto 8].
    right; right; right; left. repeat split; auto. exists n, up. split; congruence.
  - destruct (_ <=? _); [discriminate|]. intros Z; injection Z as <- <-. split; [exact Hb|].
    cbn [enter set_nodes d_ff d_state]. split; [exact Hff|]. split; [exact Hd'|]. exists n, up. split; [congruence|]. split; [exact Hdir|]. right. eexists. cbn [enter set_nodes d_nodes]. rewrite Hn. reflexivity.
  - destruct (_ && _)%bool; [discriminate|]. intros Z; injection Z as <- <-. split; [exact Hb|].
    cbn [enter d_ff d_state d_nodes]. split; [exact Hff|]. split; [exact Hd'|]. exists n, up. split; [congruence|]. split; [exact Hdir|]. left. exact Hn.
Qed.

Lemma entry_shape env d d1 n up x d' : d_nodes d1 = n :: up -> d_nodes d = d_nodes d1 -> d_ff d1 = d_ff d -> d_buf d1 = dropN (d_step d) (d_buf d) ->
  d_step d1 = 0 -> d_state d1 = d_state d -> (d_state d = D_INIT /\ is_naked d = false \/ d_state d = D_ENTERED) ->
  (d_state d = D_INIT -> up = []) -> step_entry env d1 n up = Ok (x, d') -> shape env d x d'.
Proof.
  intros Hn Hns Hff Hb H0 Hs Hd Hu. unfold step_entry.
  destruct (parse_entry env (at_root d1) (d_ff d1) (d_buf d1)) as [[|e|e o] ff'] eqn:P; [|discriminate|]; rewrite Hff in P.
  - intros Z; injection Z as <- <-. split; [exact Hb|]. split; [exact H0|].
    assert (Q : exists ar n', parse_entry env ar (d_ff d) (d_buf d1) = (RReq, ff') /\
      mkDnode (dn_name n) (dn_entry_offset n) None MODE_NONE :: up = n' :: tl (d_nodes d) /\ dn_mode n' = MODE_NONE /\ dn_entry n' = None).
    { exists (at_root d1), (mkDnode (dn_name n) (dn_entry_offset n) None MODE_NONE). rewrite Hns, Hn. auto. }
    cbn [set_nodes set_ff d_state d_ff d_nodes d_buf]. rewrite Hs.
    destruct Hd as [[Q1 Q2] | Q1]; [left|right; left]; repeat split; auto.
  - intros Z; injection Z as <- <-. apply parse_entry_ok in P as K. split; [exact Hb|]. split; [exact Hd|]. split; [reflexivity|].
    cbn [enter set_nodes set_ff d_state d_ff d_nodes d_buf d_step]. eexists _, _, e, (at_root d1). repeat split; [apply K| |exact P].
    intros Q. unfold at_root. rewrite Hn, (Hu Q). reflexivity.
Qed.

Lemma step_shape env d x d' : Inv d -> d_state d <> D_EOF -> decoder_step env d = Ok (x, d') -> shape env d x d'.
Proof.
  intros HI He H. destruct (nodes_of_Inv _ HI) as (n & up & Hn).
  rewrite decoder_step_adv, Hn in H by assumption. assert (Hh := I_head _ HI). unfold head_ok in Hh. rewrite Hn in Hh.
  unfold step_node in H. change (d_state (adv d)) with (d_state d) in H. change (is_naked (adv d)) with (is_naked d) in H.
  destruct (d_state d) eqn:Hs.
  - destruct (is_naked d) eqn:K.
    + eapply payload_shape in H; try exact H; try reflexivity; cbn [enter adv d_nodes d_state]; try exact Hn; auto. congruence.
    + eapply entry_shape; [| | | | | | | |exact H]; try reflexivity; try exact Hn; [auto|first [intros _; apply Hh|congruence]].
  - eapply entry_shape; [| | | | | | | |exact H]; try reflexivity; try exact Hn; [auto|first [intros _; apply Hh|congruence]].
  - destruct Hh as (e & He1 & He2).
    destruct (_ =? _); [discriminate|]. destruct (S_ISREG (node_mode n)) eqn:Rg.
    + eapply payload_shape in H; try exact H; try reflexivity; cbn [enter adv d_nodes d_state]; try exact Hn; auto.
      intros _. unfold is_naked. rewrite Hn. destruct up; [|reflexivity]. rewrite He1. reflexivity.
    + destruct (S_ISDIR (node_mode n)) eqn:Dr.
      * eapply filename_shape in H; try exact H; try reflexivity; try exact Hn; auto.
      * injection H as <- <-. split; [reflexivity|]. cbn [enter adv d_ff d_nodes d_state d_step]. repeat split; auto.
        right; left. split; [exact Hs|]. exists n, up. auto.
  - eapply payload_shape; [| | | | | | | |exact H]; try reflexivity; try exact Hn; auto. congruence.
  - destruct (_ =? _); [discriminate|]. destruct (S_ISDIR (node_mode n)) eqn:Dr; [cbn [negb] in H|discriminate].
    eapply filename_shape; [| | | | | | | |exact H]; try reflexivity; try exact Hn; auto.
  - destruct (_ =? _); [discriminate|]. destruct (S_ISDIR (node_mode n)) eqn:Dr; [cbn [negb] in H|discriminate].
    injection H as <- <-. split; [reflexivity|]. cbn [enter adv d_ff d_nodes d_state d_step]. repeat split; auto.
  - destruct (_ <=? _); injection H as <- <-; (split; [reflexivity|]); cbn [enter set_nodes adv d_ff d_nodes d_state d_step]; repeat split; auto.
  - congruence.
Qed.
