(** The parsers of the decoder look at no byte they don't wait for. *)
From Verif Require Import Base FeatureFlags ArchiveBase Decoder.
Local Open Scope N_scope.

Lemma fld_ext o p x : o + 8 <= len p -> fld o (p ++ x) = fld o p.
Proof.
  intros H. unfold fld. rewrite dropN_app_le by lia.
  assert (E : forall q, rd64 q = le_dec (takeN 8 q)) by reflexivity.
  rewrite !E, takeN_app_le by (rewrite len_dropN; lia). reflexivity.
Qed.

Lemma body_ext h l p x : l <= len p -> body h l (p ++ x) = body h l p.
Proof.
  intros H. unfold body. destruct (N.le_gt_cases h l) as [Hh | Hh].
  - rewrite dropN_app_le by lia. apply takeN_app_le. rewrite len_dropN. lia.
  - replace (l - h) with 0 by lia. rewrite !takeN_0. reflexivity.
Qed.

Lemma validate_format_entry_ext env ff p x : 64 <= len p ->
  validate_format_entry env ff (p ++ x) = validate_format_entry env ff p.
Proof. intros H. unfold validate_format_entry. rewrite !fld_ext by lia. reflexivity. Qed.

Lemma validate_format_ugname_ext ff l p x : l <= len p ->
  validate_format_ugname ff l (p ++ x) = validate_format_ugname ff l p.
Proof. intros H. unfold validate_format_ugname. rewrite !body_ext by lia. reflexivity. Qed.

Lemma validate_format_xattr_ext ff l p x : l <= len p ->
  validate_format_xattr ff l (p ++ x) = validate_format_xattr ff l p.
Proof. intros H. unfold validate_format_xattr. rewrite !body_ext by lia. reflexivity. Qed.

Lemma validate_format_acl_ug_ext ff l p x : l <= len p ->
  validate_format_acl_ug ff l (p ++ x) = validate_format_acl_ug ff l p.
Proof.
  intros H. unfold validate_format_acl_ug. rewrite !body_ext by lia.
  destruct (l <? ACL_HDR) eqn:E; [reflexivity|]. apply N.ltb_ge in E. unfold ACL_HDR in E.
  rewrite !fld_ext by lia. reflexivity.
Qed.

Lemma validate_format_acl_group_obj_ext ff l p x : l <= len p ->
  validate_format_acl_group_obj ff l (p ++ x) = validate_format_acl_group_obj ff l p.
Proof.
  intros H. unfold validate_format_acl_group_obj. destruct (l =? ACL_GROUP_OBJ_SIZE) eqn:E; [|reflexivity].
  apply N.eqb_eq in E. unfold ACL_GROUP_OBJ_SIZE in E. rewrite !fld_ext by lia. reflexivity.
Qed.

Lemma validate_format_acl_default_ext ff l p x : l <= len p ->
  validate_format_acl_default ff l (p ++ x) = validate_format_acl_default ff l p.
Proof.
  intros H. unfold validate_format_acl_default. destruct (l =? ACL_DEFAULT_SIZE) eqn:E; [|reflexivity].
  apply N.eqb_eq in E. unfold ACL_DEFAULT_SIZE in E. rewrite !fld_ext by lia. reflexivity.
Qed.

Lemma validate_format_selinux_ext ff l p x : l <= len p ->
  validate_format_selinux ff l (p ++ x) = validate_format_selinux ff l p.
Proof. intros H. unfold validate_format_selinux. rewrite !body_ext by lia. reflexivity. Qed.

Lemma validate_format_quota_projid_ext l p x : l <= len p ->
  validate_format_quota_projid l (p ++ x) = validate_format_quota_projid l p.
Proof.
  intros H. unfold validate_format_quota_projid. destruct (l =? QUOTA_PROJID_SIZE) eqn:E; [|reflexivity].
  apply N.eqb_eq in E. unfold QUOTA_PROJID_SIZE in E. rewrite !fld_ext by lia. reflexivity.
Qed.

Lemma validate_format_symlink_ext ff l p x : l <= len p ->
  validate_format_symlink ff l (p ++ x) = validate_format_symlink ff l p.
Proof. intros H. unfold validate_format_symlink. rewrite !body_ext by lia. reflexivity. Qed.

Lemma validate_format_device_ext ff l p x : l <= len p ->
  validate_format_device ff l (p ++ x) = validate_format_device ff l p.
Proof.
  intros H. unfold validate_format_device. destruct (l =? DEVICE_SIZE) eqn:E; [|reflexivity].
  apply N.eqb_eq in E. unfold DEVICE_SIZE in E. rewrite !fld_ext by lia. reflexivity.
Qed.

Lemma validate_format_filename_ext l p x : l <= len p ->
  validate_format_filename l (p ++ x) = validate_format_filename l p.
Proof. intros H. unfold validate_format_filename. rewrite !body_ext by lia. reflexivity. Qed.

Lemma validate_format_goodbye_ext l p x : l <= len p ->
  validate_format_goodbye l (p ++ x) = validate_format_goodbye l p.
Proof.
  intros H. unfold validate_format_goodbye. destruct (l <? HDR + GOODBYE_TAIL) eqn:E; [reflexivity|].
  apply N.ltb_ge in E. unfold HDR, GOODBYE_TAIL in *. rewrite !fld_ext by lia. reflexivity.
Qed.


Ltac bad_first := repeat match goal with |- context [if ?c then (PErr EBADMSG, _) else _] =>
  lazymatch c with context [if _ then _ else _] => fail | _ => destruct c; [reflexivity|] end end.

Ltac split_complete Hx := 
    match goal with |- context [negb (?l <=? len ?p)] =>
      let Hc := fresh "Hc" in
      destruct (N.leb_spec l (len p)) as [Hc | Hc]; [|intros H; exfalso; apply H; reflexivity];
      intros _; rewrite Hx by exact Hc; cbn [negb] end.
Ltac br F Hx tac := destruct F; [bad_first; split_complete Hx; tac; reflexivity|].

(** An object that isn't waited for is parsed alike whatever follows. *)
Lemma parse_obj_ext env ff a p x : fst (parse_obj env ff a p) <> PReq ->
  parse_obj env ff a (p ++ x) = parse_obj env ff a p.
Proof.
  unfold parse_obj. rewrite len_app.
  destruct (len p <? HDR) eqn:Hh; [intros H; exfalso; apply H; reflexivity|].
  apply N.ltb_ge in Hh. assert (Hh' := Hh). unfold HDR in Hh'.
  replace (len p + len x <? HDR) with false by (symmetry; apply N.ltb_ge; lia).
  rewrite !(fld_ext 0), !(fld_ext 8) by lia.
  set (l := fld 0 p). set (t := fld 8 p). clearbody l t.
  destruct (l <? HDR); [reflexivity|]. destruct (l =? UINT64_MAX); [reflexivity|].
  assert (Hx : l <= len p -> (l <=? len p + len x) = true) by (intros; apply N.leb_le; lia).
  destruct (t =? F_ENTRY).
  { destruct (some (pa_entry a)); [reflexivity|].
    destruct (l =? ENTRY_SIZE) eqn:El; [|reflexivity]. apply N.eqb_eq in El. unfold ENTRY_SIZE in El.
    destruct (N.leb_spec l (len p)) as [Hc | Hc]; [|intros H; exfalso; apply H; reflexivity].
    intros _. rewrite Hx by exact Hc. cbn [negb].
    rewrite validate_format_entry_ext by lia. reflexivity. }
  destruct (pa_entry a); [|reflexivity].
  br (t =? F_USER) Hx ltac:(rewrite validate_format_ugname_ext by assumption).
  br (t =? F_GROUP) Hx ltac:(rewrite validate_format_ugname_ext by assumption).
  br (t =? F_XATTR) Hx ltac:(rewrite validate_format_xattr_ext by assumption).
  br ((t =? F_ACL_USER) || (t =? F_ACL_DEFAULT_USER)) Hx ltac:(rewrite validate_format_acl_ug_ext by assumption).
  br ((t =? F_ACL_GROUP) || (t =? F_ACL_DEFAULT_GROUP)) Hx ltac:(rewrite validate_format_acl_ug_ext by assumption).
  br (t =? F_ACL_GROUP_OBJ) Hx ltac:(rewrite validate_format_acl_group_obj_ext by assumption).
  br (t =? F_ACL_DEFAULT) Hx ltac:(rewrite validate_format_acl_default_ext by assumption).
  br (t =? F_SELINUX) Hx ltac:(rewrite validate_format_selinux_ext by assumption).
  br (t =? F_FCAPS) Hx ltac:(rewrite body_ext by assumption).
  br (t =? F_QUOTA_PROJID) Hx ltac:(rewrite validate_format_quota_projid_ext by assumption).
  br (t =? F_SYMLINK) Hx ltac:(rewrite validate_format_symlink_ext by assumption).
  br (t =? F_DEVICE) Hx ltac:(rewrite validate_format_device_ext by assumption).
  destruct (t =? F_PAYLOAD); [reflexivity|].
  br (t =? F_FILENAME) Hx ltac:(rewrite validate_format_filename_ext by assumption).
  br (t =? F_GOODBYE) Hx ltac:(rewrite validate_format_goodbye_ext by assumption).
  reflexivity.
Qed.

(** What an object can do to the parser. *)
Definition obj_result env ff a p (r : pstep * N) : Prop :=
  match r with
  | (PReq, ff') => ff' = ff
  | (PErr e, _) => e = EBADMSG \/ e = EPROTONOSUPPORT
  | (PCont a' l, ff') =>
      HDR <= l <= len p /\
      ((pa_entry a = None /\ l = ENTRY_SIZE /\ fld 0 p = l /\ fld 8 p = F_ENTRY /\
        exists e, validate_format_entry env ff p = (Some e, ff') /\ pa_entry a' = Some e /\
        N.ldiff (pe_ff e) FEATURE_FLAGS_MAX = 0)
       \/ (pa_entry a' = pa_entry a /\ pa_entry a <> None /\ ff' = ff))
  | (PDone a' c w, ff') =>
      a' = a /\ c <= len p /\ ff' = ff /\ pa_entry a <> None /\
      match w with PFilename | PGoodbye => c = 0 | PPayload _ => c = HDR | _ => HDR <= c end
  end.

Lemma obj_if env ff a p (c : bool) r s :
  (c = true -> obj_result env ff a p r) -> (c = false -> obj_result env ff a p s) ->
  obj_result env ff a p (if c then r else s).
Proof. destruct c; auto. Qed.

Lemma parse_obj_inv env ff a p : obj_result env ff a p (parse_obj env ff a p).
Proof.
  unfold parse_obj.
  destruct (N.ltb_spec (len p) HDR) as [Hh | Hh]; [reflexivity|].
  remember (fld 0 p) as l eqn:El. remember (fld 8 p) as t eqn:Et.
  destruct (N.ltb_spec l HDR) as [Hl | Hl]; [left; reflexivity|].
  destruct (l =? UINT64_MAX); [left; reflexivity|].
  destruct (t =? F_ENTRY) eqn:E1.
  { destruct (pa_entry a) eqn:Ea; [left; reflexivity|]. cbn [some].
    destruct (N.eqb_spec l ENTRY_SIZE) as [E2 | E2]; [|left; reflexivity].
    destruct (N.leb_spec l (len p)) as [Hc | Hc]; [|reflexivity]. cbn [negb].
    destruct (validate_format_entry env ff p) as [[e|] ff'] eqn:Ev; [|left; reflexivity].
    destruct (N.eqb_spec (N.ldiff (pe_ff e) FEATURE_FLAGS_MAX) 0) as [E3 | E3]; cbn [negb]; [|right; reflexivity].
    cbn [obj_result]. split; [lia|]. left. apply N.eqb_eq in E1. repeat split; try congruence.
    exists e. repeat split; assumption. }
  destruct (pa_entry a) as [e|] eqn:Ea; [|left; reflexivity].
  Ltac inv_bad := repeat match goal with |- obj_result _ _ _ _ (if ?c then (PErr EBADMSG, _) else _) =>
    apply obj_if; intros ?; [left; reflexivity|] end.
  Ltac inv_cont Ea := cbn [obj_result pa_entry]; split; [assumption || (unfold HDR in *; lia)|]; right; repeat split; congruence.
  Ltac inv_br c Ea := 
    apply obj_if; intros _;
    [inv_bad;
     match goal with |- context [negb (?l <=? len ?p)] =>
      let Hc := fresh "Hc" in
      destruct (N.leb_spec l (len p)) as [Hc | Hc]; [|reflexivity]; cbn [negb];
      repeat match goal with
      | |- obj_result _ _ _ _ (match ?v with _ => _ end) => destruct v
      end; try (left; reflexivity); try (inv_cont Ea) end |].
  inv_br tt Ea. inv_br tt Ea. inv_br tt Ea. inv_br tt Ea. inv_br tt Ea.
  inv_br tt Ea. inv_br tt Ea. inv_br tt Ea. inv_br tt Ea. inv_br tt Ea.
  inv_br tt Ea. { cbn [obj_result]. repeat split; congruence || lia || (unfold HDR in *; lia). }
  inv_br tt Ea. { cbn [obj_result]. repeat split; congruence || lia || (unfold HDR in *; lia). }
  { apply obj_if; intros _. { inv_bad. cbn [obj_result]. repeat split; congruence || lia. }
    inv_br tt Ea. { cbn [obj_result]. repeat split; congruence || lia. }
    inv_br tt Ea. { cbn [obj_result]. repeat split; congruence || lia. }
    left; reflexivity. }
Qed.

(** Once there is an ENTRY record the feature flags stay. *)
Lemma parse_loop_ff n : forall env ar ff a p off r ff',
  parse_loop n env ar ff a p off = (r, ff') -> pa_entry a <> None -> ff' = ff.
Proof.
  induction n as [|n IH]; cbn [parse_loop]; intros env ar ff a p off r ff' H Ha; [congruence|].
  pose proof (parse_obj_inv env ff a p) as I.
  destruct (parse_obj env ff a p) as [[|e|a' l|a' c w] ff1] eqn:E; cbn [obj_result] in I.
  - congruence.
  - (* error: only an ENTRY record changes the flags, and there is one already *)
    assert (ff1 = ff); [|congruence].
    clear - E Ha. revert E. unfold parse_obj.
    destruct (len p <? HDR); [congruence|]. destruct (fld 0 p <? HDR); [congruence|].
    destruct (fld 0 p =? UINT64_MAX); [congruence|].
    destruct (pa_entry a) as [en|]; [|congruence].
    set (l := fld 0 p). set (t := fld 8 p). clearbody l t.
    destruct (t =? F_ENTRY); [cbn; congruence|].
    Ltac pair_br := match goal with |- (if ?c then _ else _) = _ -> _ => destruct c end.
    repeat (match goal with
            | |- (match ?v with _ => _ end) = _ -> _ => destruct v
            end; try congruence).
  - destruct I as [_ [(E0 & _) | (E1 & E2 & ->)]]; [congruence|].
    eapply IH in H; congruence.
  - destruct I as (-> & _ & -> & _). destruct (pa_entry a); [|congruence].
    destruct (parse_checks ar ff a p0 w); congruence.
Qed.

(** More fuel than bytes is enough fuel. *)
Lemma parse_loop_ext n : forall env ar ff a p off r ff' m x,
  parse_loop n env ar ff a p off = (r, ff') -> r <> RReq -> (length p < n)%nat ->
  (length (p ++ x) < m)%nat ->
  parse_loop m env ar ff a (p ++ x) off = (r, ff').
Proof.
  induction n as [|n IH]; intros env ar ff a p off r ff' m x H Hr Hn Hm; [lia|].
  destruct m as [|m]; [lia|].
  cbn [parse_loop] in *.
  pose proof (parse_obj_inv env ff a p) as I. pose proof (parse_obj_ext env ff a p x) as X.
  destruct (parse_obj env ff a p) as [[|e|a' l|a' c w] ff1] eqn:E; cbn [obj_result fst] in I, X.
  - congruence.
  - rewrite X by discriminate. assumption.
  - rewrite X by discriminate. destruct I as [[I1 I2] _]. unfold HDR in I1.
    rewrite dropN_app_le by assumption.
    eapply IH; try eassumption.
    + unfold dropN. rewrite skipn_length. unfold len in I2. lia.
    + unfold dropN. rewrite app_length in *. rewrite skipn_length. unfold len in I2. lia.
  - rewrite X by discriminate. assumption.
Qed.

Lemma parse_loop_fuel n env ar ff a p off m :
  (length p < n)%nat -> (length p < m)%nat -> parse_loop n env ar ff a p off = parse_loop m env ar ff a p off.
Proof.
  revert m ff a p off. induction n as [|n IH]; intros m ff a p off Hn Hm; [lia|].
  destruct m as [|m]; [lia|]. cbn [parse_loop].
  pose proof (parse_obj_inv env ff a p) as I.
  destruct (parse_obj env ff a p) as [[|e|a' l|a' c w] ff1]; cbn [obj_result] in I; try reflexivity.
  destruct I as [[I1 I2] _]. unfold HDR in I1. unfold len in I2.
  apply IH; unfold dropN; rewrite skipn_length; lia.
Qed.

Lemma validate_feature_flags_again env ff fl ff' :
  validate_feature_flags env ff fl = (true, ff') -> validate_feature_flags env ff' fl = (true, ff').
Proof.
  unfold validate_feature_flags.
  destruct (fl =? UINT64_MAX) eqn:E0; [discriminate|].
  destruct (negb (de_expected env =? UINT64_MAX) && negb (fl =? de_expected env)); [discriminate|].
  destruct (match feature_flags_are_normalized fl with
          | Ok b => negb b | Err e => negb (errno_eqb e EOPNOTSUPP) | _ => true end); [discriminate|].
  destruct (N.eqb_spec ff UINT64_MAX) as [E | E].
  - intros H. assert (ff' = fl) by congruence. subst ff'. rewrite E0. rewrite N.eqb_refl. reflexivity.
  - intros H. assert (ff' = ff) by congruence. assert (Hff : (ff =? fl) = true) by congruence. subst ff'.
    destruct (N.eqb_spec ff UINT64_MAX); [contradiction|]. rewrite Hff. reflexivity.
Qed.

Lemma validate_format_entry_again env ff p e ff' :
  validate_format_entry env ff p = (Some e, ff') -> validate_format_entry env ff' p = (Some e, ff').
Proof.
  unfold validate_format_entry.
  destruct (validate_feature_flags env ff _) as [[|] ff1] eqn:V; cbn [negb]; [|discriminate].
  intros H.
  assert (ff1 = ff').
  { revert H. repeat match goal with |- (if ?c then _ else _) = _ -> _ => destruct c end; congruence. }
  subst ff1. rewrite (validate_feature_flags_again _ _ _ _ V). cbn [negb]. assumption.
Qed.

(** The flags that an incomplete parse has already settled don't change the next try. *)
Lemma parse_loop_req n : forall env ar ff a p off ff' m x,
  parse_loop n env ar ff a p off = (RReq, ff') -> (length p < n)%nat -> (length (p ++ x) < m)%nat ->
  parse_loop m env ar ff a (p ++ x) off = parse_loop m env ar ff' a (p ++ x) off.
Proof.
  induction n as [|n IH]; intros env ar ff a p off ff' m x H Hn Hm; [lia|].
  destruct m as [|m]; [lia|].
  destruct (pa_entry a) as [e0|] eqn:Ea.
  { apply parse_loop_ff in H; [congruence|]. congruence. }
  cbn [parse_loop] in H.
  pose proof (parse_obj_inv env ff a p) as I. pose proof (parse_obj_ext env ff a p x) as X.
  destruct (parse_obj env ff a p) as [[|e|a' l|a' c w] ff1] eqn:E; cbn [obj_result fst] in I, X.
  - congruence.
  - congruence.
  - destruct I as [[I1 I2] [(_ & I3 & I4 & I5 & e & I6 & I7 & I8) | (_ & Hn0 & _)]]; [|congruence].
    assert (ff' = ff1) by (apply parse_loop_ff in H; congruence). subst ff'.
    cbn [parse_loop]. rewrite X by discriminate.
    assert (Y : parse_obj env ff1 a (p ++ x) = (PCont a' l, ff1)).
    { rewrite <- X by discriminate. assert (Y := X ltac:(discriminate)).
      revert Y. unfold parse_obj. rewrite len_app.
      unfold HDR in I1.
      replace (len p + len x <? HDR) with false by (symmetry; apply N.ltb_ge; unfold HDR; lia).
      rewrite !(fld_ext 0), !(fld_ext 8) by lia. rewrite I4, I5.
      replace (l <? HDR) with false by (symmetry; apply N.ltb_ge; unfold HDR; lia).
      rewrite I3. replace (ENTRY_SIZE =? UINT64_MAX) with false by reflexivity.
      rewrite !N.eqb_refl. rewrite Ea. cbn [some negb].
      assert (I3' := I3). unfold ENTRY_SIZE in I3'.
      replace (ENTRY_SIZE <=? len p + len x) with true by (symmetry; apply N.leb_le; unfold ENTRY_SIZE; lia).
      cbn [negb]. rewrite !validate_format_entry_ext by lia.
      rewrite I6, (validate_format_entry_again _ _ _ _ _ I6).
      destruct (N.ldiff (pe_ff e) FEATURE_FLAGS_MAX =? 0); cbn [negb]; congruence. }
    rewrite Y. reflexivity.
  - destruct I as (-> & _ & _ & I & _). congruence.
Qed.

Lemma parse_entry_ext env ar ff p x r ff' :
  parse_entry env ar ff p = (r, ff') -> r <> RReq -> parse_entry env ar ff (p ++ x) = (r, ff').
Proof. unfold parse_entry. intros H Hr. eapply parse_loop_ext; [exact H|assumption|lia|lia]. Qed.

Lemma parse_entry_req env ar ff p x ff' :
  parse_entry env ar ff p = (RReq, ff') -> parse_entry env ar ff (p ++ x) = parse_entry env ar ff' (p ++ x).
Proof. unfold parse_entry. intros H. eapply parse_loop_req; [exact H|lia|lia]. Qed.

Lemma parse_filename_ext p x : parse_filename p <> FReq -> parse_filename (p ++ x) = parse_filename p.
Proof.
  unfold parse_filename. rewrite len_app.
  destruct (N.ltb_spec (len p) HDR) as [Hh | Hh]; [intros H; exfalso; apply H; reflexivity|].
  unfold HDR in Hh.
  replace (len p + len x <? HDR) with false by (symmetry; apply N.ltb_ge; unfold HDR; lia).
  rewrite !(fld_ext 0), !(fld_ext 8) by lia.
  set (l := fld 0 p). set (t := fld 8 p). clearbody l t.
  destruct (l <? HDR); [reflexivity|]. destruct (l =? UINT64_MAX); [reflexivity|].
  destruct (N.leb_spec l (len p)) as [Hc | Hc].
  - replace (l <=? len p + len x) with true by (symmetry; apply N.leb_le; lia).
    rewrite validate_format_filename_ext, validate_format_goodbye_ext by assumption. reflexivity.
  - cbn [negb]. intros H.
    destruct (t =? F_FILENAME); [destruct (l <? HDR + 1); [reflexivity|exfalso; apply H; reflexivity]|].
    destruct (t =? F_GOODBYE); [|reflexivity].
    destruct (l <? HDR + GOODBYE_TAIL); [reflexivity|exfalso; apply H; reflexivity].
Qed.
