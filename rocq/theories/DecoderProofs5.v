(** What the decoder reports is valid meta data. *)
From Coq Require Import Sorted.
From Verif Require Import Base FeatureFlags ArchiveBase Decoder DecoderSpec DecoderProofs DecoderProofs2.
Local Open Scope N_scope.
Local Arguments fld : simpl never.
Local Arguments body : simpl never.

Lemma strcmp_antisym a : forall b, strcmp a b = CompOpp (strcmp b a).
Proof.
  induction a as [|x a IH]; intros [|y b]; cbn [strcmp]; try reflexivity.
  rewrite (N.compare_antisym y x). destruct (y ?= x) eqn:E; cbn [CompOpp]; auto.
Qed.
Lemma strcmp_eq a : forall b, strcmp a b = Eq -> a = b.
Proof.
  induction a as [|x a IH]; intros [|y b]; cbn [strcmp]; try discriminate; auto.
  destruct (N.compare_spec x y) as [->| |]; try discriminate. intros H. f_equal. auto.
Qed.
Lemma strcmp_refl a : strcmp a a = Eq.
Proof. induction a as [|x a IH]; cbn [strcmp]; [reflexivity|]. rewrite N.compare_refl. exact IH. Qed.
Lemma strcmp_trans a : forall b c, strcmp a b = Lt -> strcmp b c = Lt -> strcmp a c = Lt.
Proof.
  induction a as [|x a IH]; intros [|y b] [|z c]; cbn [strcmp]; try discriminate; auto.
  destruct (N.compare_spec x y) as [->|L1|L1]; try discriminate;
  destruct (N.compare_spec y z) as [->|L2|L2]; try discriminate.
  - rewrite ?N.compare_refl. apply IH.
  - intros _ _. apply N.compare_lt_iff in L2. rewrite ?L2. reflexivity.
  - intros _ _. apply N.compare_lt_iff in L1. rewrite L1. reflexivity.
  - intros _ _. assert (x < z) by lia. apply N.compare_lt_iff in H. rewrite H. reflexivity.
Qed.

Lemma acl_cmp_antisym a b : acl_cmp a b = CompOpp (acl_cmp b a).
Proof.
  unfold acl_cmp. rewrite (N.compare_antisym (ae_id b) (ae_id a)).
  destruct (ae_id b ?= ae_id a); cbn [CompOpp]; auto.
  destruct (ae_name a) as [x|], (ae_name b) as [y|]; cbn [CompOpp]; auto using N.compare_antisym.
  rewrite (strcmp_antisym x y). destruct (strcmp y x); cbn [CompOpp]; auto using N.compare_antisym.
Qed.
Lemma acl_cmp_eq a b : acl_cmp a b = Eq -> a = b.
Proof.
  destruct a as [i n p], b as [j m q]. unfold acl_cmp. cbn.
  destruct (N.compare_spec i j) as [->| |]; try discriminate.
  destruct n as [x|], m as [y|]; try discriminate.
  - destruct (strcmp x y) eqn:E; try discriminate. intros H. apply N.compare_eq_iff in H. apply strcmp_eq in E. congruence.
  - intros H. apply N.compare_eq_iff in H. congruence.
Qed.
Lemma acl_cmp_trans a b c : acl_cmp a b = Lt -> acl_cmp b c = Lt -> acl_cmp a c = Lt.
Proof.
  destruct a as [i n p], b as [j m q], c as [k l r]. unfold acl_cmp. cbn.
  destruct (N.compare_spec i j) as [->|L1|L1]; try discriminate;
  destruct (N.compare_spec j k) as [->|L2|L2]; try discriminate.
  - rewrite ?N.compare_refl. destruct n as [x|], m as [y|], l as [z|]; try discriminate; auto.
    + destruct (strcmp x y) eqn:E1; try discriminate; destruct (strcmp y z) eqn:E2; try discriminate.
      * apply strcmp_eq in E1, E2. subst. rewrite strcmp_refl. rewrite !N.compare_lt_iff. lia.
      * apply strcmp_eq in E1. subst. rewrite E2. auto.
      * apply strcmp_eq in E2. subst. rewrite E1. auto.
      * rewrite (strcmp_trans _ _ _ E1 E2). auto.
    + rewrite !N.compare_lt_iff. lia.
  - intros _ _. apply N.compare_lt_iff in L2. rewrite ?L2. reflexivity.
  - intros _ _. apply N.compare_lt_iff in L1. rewrite ?L1. reflexivity.
  - intros _ _. assert (H : i < k) by lia. apply N.compare_lt_iff in H. rewrite H. reflexivity.
Qed.

(** ** The fields *)

Lemma last_removelast {A} (s : list A) d : s <> [] -> removelast s ++ [last s d] = s.
Proof. intros H. symmetry. apply app_removelast_last. exact H. Qed.

Lemma len_removelast {A} (s : list A) : len (removelast s) = len s - 1.
Proof.
  induction s as [|x [|y s] IH]; [reflexivity|reflexivity|].
  change (removelast (x :: y :: s)) with (x :: removelast (y :: s)). rewrite len_cons, IH, !len_cons. lia.
Qed.

Lemma is_alpha_letter b : is_alpha_ b = true -> letter_ b.
Proof. unfold is_alpha_, letter_. rewrite !Bool.orb_true_iff, !Bool.andb_true_iff, !N.leb_le, N.eqb_eq. tauto. Qed.

Lemma validate_user_group_name_ok s : validate_user_group_name s = true -> is_user_name (removelast s).
Proof.
  unfold validate_user_group_name.
  destruct (N.ltb_spec (len s) 2) as [L | L]; [discriminate|].
  destruct (N.eqb_spec (last s 1) 0) as [E | E]; [|discriminate]. cbn [negb].
  destruct (is_alpha_ (hd 0 s)) eqn:Ha; [|discriminate]. cbn [negb].
  destruct (forallb is_name_char (tl (removelast s))) eqn:Hf; [|discriminate]. cbn [negb].
  destruct (N.ltb_spec 256 (len s)) as [L2 | L2]; [discriminate|].
  destruct (beq s (root_name ++ [0])) eqn:Hr; [discriminate|]. intros _.
  assert (Hs : s <> []) by (intros ->; cbv in L; congruence).
  assert (Hl := last_removelast s 1 Hs). rewrite E in Hl.
  assert (Hlen := len_removelast s).
  destruct (removelast s) as [|c r] eqn:Er; [rewrite len_nil in Hlen; lia|].
  assert (Hh : hd 0 s = c) by (rewrite <- Hl; reflexivity). rewrite Hh in Ha.
  repeat split.
  - discriminate.
  - apply is_alpha_letter. exact Ha.
  - cbn [tl] in *. apply Forall_forall. intros b Hb. apply (forallb_In _ _ _ Hf) in Hb.
    unfold is_name_char in Hb. rewrite !Bool.orb_true_iff, Bool.andb_true_iff, !N.leb_le, N.eqb_eq in Hb.
    destruct Hb as [[Hb | Hb] | Hb]; auto. left. apply is_alpha_letter. exact Hb.
  - lia.
  - intros Ec. apply beq_neq in Hr. apply Hr. rewrite <- Hl, Ec. reflexivity.
Qed.

Lemma split_nul_inv l : forall s r, split_nul l = Some (s, r) -> l = s ++ [0] ++ r /\ ~ In 0 s.
Proof.
  induction l as [|b l IH]; cbn [split_nul]; [discriminate|]. intros s r.
  destruct (N.eqb_spec b 0) as [->|Hb].
  - intros E. injection E as <- <-. auto.
  - destruct (split_nul l) as [[s' r']|]; [|discriminate]. intros E. injection E as <- <-.
    destruct (IH _ _ eq_refl) as [-> Hn]. split; [reflexivity|]. intros [->|H]; auto.
Qed.
Lemma split_dot_inv l : forall s r, split_dot l = Some (s, r) -> l = s ++ [46] ++ r /\ ~ In 46 s.
Proof.
  induction l as [|b l IH]; cbn [split_dot]; [discriminate|]. intros s r.
  destruct (N.eqb_spec b 46) as [->|Hb].
  - intros E. injection E as <- <-. auto.
  - destruct (split_dot l) as [[s' r']|]; [|discriminate]. intros E. injection E as <- <-.
    destruct (IH _ _ eq_refl) as [-> Hn]. split; [reflexivity|]. intros [->|H]; auto.
Qed.

Lemma xattr_name_ok s : xattr_name_is_valid s = true -> ~ In 0 s -> is_xattr_name s.
Proof.
  unfold xattr_name_is_valid. destruct (len s =? 0); [discriminate|].
  destruct (split_dot s) as [[a b]|] eqn:Es; [|discriminate].
  destruct (N.eqb_spec (len a) 0) as [E1 | E1]; [discriminate|].
  destruct (N.eqb_spec (len b) 0) as [E2 | E2]; [discriminate|].
  destruct (N.ltb_spec 255 (len s)) as [L | L]; [discriminate|]. intros _ Hn.
  apply split_dot_inv in Es. destruct Es as [Es Hd]. split; [|split]; auto.
  exists a, b. repeat split; auto; intros ->; auto.
Qed.

Lemma perm_ok p : validate_acl_permissions p = true -> p <= 7.
Proof.
  unfold validate_acl_permissions. intros H. apply N.eqb_eq in H.
  assert (E : N.land p 7 = p).
  { apply N.bits_inj. intros n. rewrite N.land_spec.
    assert (B := f_equal (fun x => N.testbit x n) H). cbn beta in B. rewrite N.ldiff_spec, N.bits_0 in B.
    destruct (N.testbit p n), (N.testbit 7 n); cbn in *; congruence. }
  rewrite <- E. change 7 with (N.ones 3) at 1. rewrite N.land_ones. change (2 ^ 3) with 8.
  pose proof (N.mod_upper_bound p 8). lia.
Qed.

Lemma uid_gid_ok ff u : validate_uid_gid ff u = true -> is_id u.
Proof.
  unfold validate_uid_gid, is_id. destruct (has ff WITH_16BIT_UIDS).
  - intros H. apply N.ltb_lt in H. unfold UINT16_MAX, UINT32_MAX in *. lia.
  - destruct (has ff WITH_32BIT_UIDS).
    + rewrite Bool.andb_true_iff, N.ltb_lt, Bool.negb_true_iff, N.eqb_neq. auto.
    + intros H. apply N.eqb_eq in H. subst. unfold UINT32_MAX, UINT16_MAX; lia.
Qed.

Lemma no_nul_ok s : no_nul s = true -> ~ In 0 s.
Proof. unfold no_nul. intros H Hi. apply (forallb_In _ _ _ H) in Hi. discriminate. Qed.

(** ** The parser's accumulator *)

Definition rsorted {A} (lt : A -> A -> Prop) (l : list A) : Prop := StronglySorted (fun a b => lt b a) l.

Lemma rsorted_rev {A} (lt : A -> A -> Prop) l : rsorted lt l -> StronglySorted lt (rev l).
Proof.
  unfold rsorted. induction 1 as [|a l H IH HF]; cbn [rev]; [constructor|].
  assert (X : forall m, StronglySorted lt m -> Forall (fun x => lt x a) m -> StronglySorted lt (m ++ [a])).
  { clear. induction m as [|x m IH]; intros H1 H2; cbn; [repeat constructor|].
    inversion H1; subst. inversion H2; subst. constructor; auto. apply Forall_app. split; auto. }
  apply X; auto. apply Forall_rev. exact HF.
Qed.

Lemma rsorted_cons {A} (lt : A -> A -> Prop) (a : A) l :
  (forall x y z, lt x y -> lt y z -> lt x z) ->
  rsorted lt l -> match l with [] => True | b :: _ => lt b a end -> rsorted lt (a :: l).
Proof.
  intros T H Hb. constructor; auto. destruct l as [|b l]; constructor; auto.
  inversion H as [|? ? Q1 Q2]; subst. eapply Forall_impl; [|exact Q2]. cbn beta. intros x Hx. exact (T _ _ _ Hx Hb).
Qed.

Definition racl (l : list acl_ent) : Prop := Forall is_acl_ent l /\ rsorted (fun a b => acl_cmp a b = Lt) l.

Record pacc_ok (a : pacc) : Prop := mkPaccOk {
  po_entry : forall e, pa_entry a = Some e -> pe_mode e < 65536 /\ is_id (pe_uid e) /\ is_id (pe_gid e) /\
    (S_ISLNK (pe_mode e) = true -> pe_mode e = S_IFLNK + 0x1FF) /\
    (exists t, In t [S_ISREG; S_ISDIR; S_ISLNK; S_ISBLK; S_ISCHR; S_ISFIFO; S_ISSOCK] /\ t (pe_mode e) = true);
  po_user : forall n, pa_user a = Some n -> is_user_name n;
  po_group : forall n, pa_group a = Some n -> is_user_name n;
  po_xattrs : Forall (fun x => is_xattr_name (fst x)) (pa_xattrs a);
  po_xorder : rsorted (fun x y => str_lt (fst x) (fst y)) (pa_xattrs a);
  po_au : racl (pa_acl_user a); po_ag : racl (pa_acl_group a);
  po_adu : racl (pa_acl_default_user a); po_adg : racl (pa_acl_default_group a);
  po_go : forall g, pa_acl_group_obj a = Some g -> g <= 7;
  po_ad : forall u g o m, pa_acl_default a = Some (u, g, o, m) -> u <= 7 /\ g <= 7 /\ o <= 7 /\ is_perm_opt m;
  po_have : pa_have_acl a = false -> pa_acl_user a = [] /\ pa_acl_group a = [] /\ pa_acl_group_obj a = None;
  po_sel : forall s, pa_selinux a = Some s -> s <> [] /\ ~ In 0 s;
  po_proj : forall q, pa_projid a = Some q -> 0 < q <= UINT32_MAX
}.

Lemma racl_nil : racl []. Proof. split; constructor. Qed.
Lemma pacc0_ok : pacc_ok pacc0.
Proof. constructor; cbn; try discriminate; auto using racl_nil; constructor. Qed.

Lemma racl_cons u l : is_acl_ent u -> racl l -> acl_ordered u l = true -> racl (u :: l).
Proof.
  intros Hu [H1 H2] Ho. split; [constructor; assumption|]. apply rsorted_cons.
  - intros x y z. apply acl_cmp_trans.
  - exact H2.
  - unfold acl_ordered in Ho. destruct l as [|b l]; auto.
    destruct (acl_cmp u b) eqn:E; try discriminate. rewrite acl_cmp_antisym, E. reflexivity.
Qed.

(** The object that ends the list fits the file type. *)
Definition pend_ok (e : pentry) (w : pend) : Prop :=
  match w with
  | PSymlink s => S_ISLNK (pe_mode e) = true /\ s <> [] /\ ~ In 0 s /\ len s <= 4095
  | PDevice x y => (S_ISBLK (pe_mode e) || S_ISCHR (pe_mode e))%bool = true /\ x < 4096 /\ y < 1048576
  | PPayload _ => S_ISREG (pe_mode e) = true
  | PFilename | PGoodbye => True
  end.

Definition obj_valid (r : pstep * N) : Prop :=
  match r with
  | (PCont a' _, _) => pacc_ok a'
  | (PDone a' _ w, _) => pacc_ok a' /\ forall e, pa_entry a' = Some e -> pend_ok e w
  | _ => True
  end.

Lemma ldiff_mode m : N.ldiff m (N.lor S_IFMT 4095) = 0 -> m < 65536.
Proof.
  intros H. change (N.lor S_IFMT 4095) with (N.ones 16) in H.
  assert (E : N.land m (N.ones 16) = m).
  { apply N.bits_inj. intros n. rewrite N.land_spec.
    assert (B := f_equal (fun x => N.testbit x n) H). cbn beta in B. rewrite N.ldiff_spec, N.bits_0 in B.
    destruct (N.testbit m n), (N.testbit (N.ones 16) n); cbn in *; congruence. }
  rewrite <- E, N.land_ones. apply N.mod_upper_bound. discriminate.
Qed.

Lemma validate_mode_ok ff m fl : validate_mode ff m fl = true ->
  m < 65536 /\ (S_ISLNK m = true -> m = S_IFLNK + 0x1FF) /\
  (exists t, In t [S_ISREG; S_ISDIR; S_ISLNK; S_ISBLK; S_ISCHR; S_ISFIFO; S_ISSOCK] /\ t m = true).
Proof.
  unfold validate_mode.
  destruct (N.eqb_spec (N.ldiff m (N.lor S_IFMT 4095)) 0) as [E | E]; [|discriminate]. cbn [negb].
  apply ldiff_mode in E.
  set (ty := if S_ISREG m then true else _).
  destruct ty eqn:Ht; [|discriminate]. cbn [negb].
  destruct (negb (S_ISDIR m) && has fl WITH_SUBVOLUME); [discriminate|].
  intros H. split; [assumption|]. split.
  - intros L. rewrite L in H. apply N.eqb_eq in H.
    unfold S_ISLNK, is_type in L. apply N.eqb_eq in L.
    assert (D : m = N.lor (N.land m S_IFMT) (N.land m 4095)).
    { rewrite <- N.land_lor_distr_r. change (N.lor S_IFMT 4095) with (N.ones 16). rewrite N.land_ones.
      symmetry. apply N.mod_small. exact E. }
    rewrite D, L, H. reflexivity.
  - subst ty.
    destruct (S_ISREG m) eqn:E1; [exists S_ISREG; cbn; tauto|].
    destruct (S_ISDIR m) eqn:E2; [exists S_ISDIR; cbn; tauto|].
    destruct (S_ISSOCK m) eqn:E3; [exists S_ISSOCK; cbn; tauto|].
    destruct (S_ISFIFO m) eqn:E4; [exists S_ISFIFO; cbn; tauto|].
    destruct (S_ISBLK m) eqn:E5; [exists S_ISBLK; cbn; tauto|].
    destruct (S_ISCHR m) eqn:E6; [exists S_ISCHR; cbn; tauto|].
    destruct (S_ISLNK m) eqn:E7; [exists S_ISLNK; cbn; tauto|discriminate].
Qed.

Lemma body_len h l p : h <= l -> l <= len p -> len (body h l p) = l - h.
Proof. intros H1 H2. unfold body. rewrite len_takeN, len_dropN. lia. Qed.

Lemma val_if (c : bool) r s :
  (c = true -> obj_valid r) -> (c = false -> obj_valid s) -> obj_valid (if c then r else s).
Proof. destruct c; auto. Qed.

Lemma ugname_ok ff l p n : validate_format_ugname ff l p = Some n -> is_user_name n.
Proof.
  unfold validate_format_ugname. destruct (_ <? _); [discriminate|]. destruct (negb _); [discriminate|].
  destruct (validate_user_group_name _) eqn:V; [|discriminate]. cbn [negb]. intros E. injection E as <-.
  apply validate_user_group_name_ok. exact V.
Qed.

Lemma acl_ug_ok ff l p u : validate_format_acl_ug ff l p = Some u -> is_acl_ent u.
Proof.
  unfold validate_format_acl_ug. destruct (_ <? _); [discriminate|]. destruct (negb _); [discriminate|].
  destruct ((ACL_HDR <? l) && negb (has ff WITH_USER_NAMES)); [discriminate|].
  destruct (ACL_HDR <? l) eqn:El; cbn [andb].
  - destruct (validate_user_group_name _) eqn:V; [|discriminate]. cbn [negb].
    destruct (validate_uid_gid _ _) eqn:U; [|discriminate]. cbn [negb].
    destruct (validate_acl_permissions _) eqn:P; [|discriminate]. cbn [negb]. intros E. injection E as <-.
    split; [|split]; cbn [ae_id ae_perm ae_name]; [eapply uid_gid_ok; eassumption| |].
    + apply perm_ok. exact P.
    + intros n E. injection E as <-. apply validate_user_group_name_ok. exact V.
  - destruct (validate_uid_gid _ _) eqn:U; [|discriminate]. cbn [negb].
    destruct (validate_acl_permissions _) eqn:P; [|discriminate]. cbn [negb]. intros E. injection E as <-.
    split; [|split]; cbn [ae_id ae_perm ae_name]; [eapply uid_gid_ok; eassumption| |].
    + apply perm_ok. exact P.
    + discriminate.
Qed.

Lemma xattr_ok ff l p n v : validate_format_xattr ff l p = Some (n, v) -> is_xattr_name n.
Proof.
  unfold validate_format_xattr. destruct (_ <? _); [discriminate|]. destruct (negb _); [discriminate|].
  destruct (split_nul _) as [[s r]|] eqn:S; [|discriminate].
  destruct (xattr_name_is_valid s) eqn:V; [|discriminate]. cbn [negb]. intros E. injection E as <- <-.
  apply xattr_name_ok; [exact V|]. apply split_nul_inv in S. tauto.
Qed.

Lemma entry_valid env ff p e ff' : validate_format_entry env ff p = (Some e, ff') ->
  pe_mode e < 65536 /\ is_id (pe_uid e) /\ is_id (pe_gid e) /\
    (S_ISLNK (pe_mode e) = true -> pe_mode e = S_IFLNK + 0x1FF) /\
    (exists t, In t [S_ISREG; S_ISDIR; S_ISLNK; S_ISBLK; S_ISCHR; S_ISFIFO; S_ISSOCK] /\ t (pe_mode e) = true).
Proof.
  unfold validate_format_entry.
  set (e0 := mkPentry _ _ _ _ _ _).
  destruct (validate_feature_flags env ff _) as [[|] ff1]; [|discriminate]. cbn [negb].
  destruct (validate_mode ff1 _ _) eqn:M; [|discriminate]. cbn [negb].
  destruct (validate_entry_flags _ _); [|discriminate]. cbn [negb].
  destruct (validate_uid_gid ff1 (pe_uid e0)) eqn:U; [|discriminate]. cbn [negb].
  destruct (validate_uid_gid ff1 (pe_gid e0)) eqn:G; [|discriminate]. cbn [negb].
  destruct (validate_nsec _ _); [|discriminate]. cbn [negb]. intros E.
  assert (e = e0) by congruence. subst e. clearbody e0.
  apply validate_mode_ok in M. apply uid_gid_ok in U, G. tauto.
Qed.

Lemma parse_obj_valid env ff a p : pacc_ok a -> obj_valid (parse_obj env ff a p).
Proof.
  intros P. assert (P' := P). destruct P' as [p1 p2 p3 p4 p5 p6 p7 p8 p9 p10 p11 p12 p13 p14].
  unfold parse_obj.
  destruct (N.ltb_spec (len p) HDR) as [Hh | Hh]; [exact I|].
  remember (fld 0 p) as l eqn:El. remember (fld 8 p) as t eqn:Et.
  destruct (N.ltb_spec l HDR) as [Hl | Hl]; [exact I|].
  destruct (l =? UINT64_MAX); [exact I|].
  destruct (t =? F_ENTRY) eqn:E1.
  { destruct (pa_entry a) eqn:Ea; [exact I|]. cbn [some].
    destruct (N.eqb_spec l ENTRY_SIZE) as [E2 | E2]; [|exact I].
    destruct (N.leb_spec l (len p)) as [Hc | Hc]; [|exact I]. cbn [negb].
    destruct (validate_format_entry env ff p) as [[e|] ff'] eqn:Ev; [|exact I].
    destruct (N.eqb_spec (N.ldiff (pe_ff e) FEATURE_FLAGS_MAX) 0) as [E3 | E3]; cbn [negb]; [|exact I].
    cbn [obj_valid]. constructor; cbn; auto. intros e' E. injection E as <-. eapply entry_valid; eassumption. }
  destruct (pa_entry a) as [e|] eqn:Ea; [|exact I].
  assert (p1' := p1 e eq_refl).
  Ltac v_bad := repeat match goal with |- obj_valid (if ?c then (PErr EBADMSG, _) else _) =>
    apply val_if; intros ?; [exact I|] end.
  Ltac v_br := apply val_if; intros ?;
    [v_bad;
     match goal with |- context [negb (?l <=? len ?p)] =>
      let Hc := fresh "Hc" in
      destruct (N.leb_spec l (len p)) as [Hc | Hc]; [|exact I]; cbn [negb] end |].
  v_br. { destruct (validate_format_ugname ff l p) eqn:V; [|exact I]. v_bad. apply ugname_ok in V.
          cbn [obj_valid]. constructor; cbn; auto. congruence. }
  v_br. { destruct (validate_format_ugname ff l p) eqn:V; [|exact I]. v_bad. apply ugname_ok in V.
          cbn [obj_valid]. constructor; cbn; auto. congruence. }
  v_br. { destruct (validate_format_xattr ff l p) as [[n v]|] eqn:V; [|exact I].
          destruct (xattr_ordered n (pa_xattrs a)) eqn:Ho; [|exact I]. cbn [negb].
          apply xattr_ok in V.
          cbn [obj_valid]. constructor; cbn; auto.
          apply rsorted_cons; auto.
          - intros x y z. unfold str_lt. apply strcmp_trans.
          - unfold xattr_ordered in Ho. destruct (pa_xattrs a) as [|[m w] xs]; auto. unfold str_lt. cbn.
            destruct (strcmp n m) eqn:E; try discriminate. rewrite strcmp_antisym, E. reflexivity. }
  v_br. { destruct (validate_format_acl_ug ff l p) as [u|] eqn:V; [|exact I]. apply acl_ug_ok in V.
          destruct (t =? F_ACL_USER).
          - destruct (acl_ordered u (pa_acl_user a)) eqn:Ho; [|exact I]. cbn [negb].
            cbn [obj_valid]. constructor; cbn; auto using racl_cons. discriminate.
          - destruct (acl_ordered u (pa_acl_default_user a)) eqn:Ho; [|exact I]. cbn [negb].
            cbn [obj_valid]. constructor; cbn; auto using racl_cons. discriminate. }
  v_br. { destruct (validate_format_acl_ug ff l p) as [u|] eqn:V; [|exact I]. apply acl_ug_ok in V.
          destruct (t =? F_ACL_GROUP).
          - destruct (acl_ordered u (pa_acl_group a)) eqn:Ho; [|exact I]. cbn [negb].
            cbn [obj_valid]. constructor; cbn; auto using racl_cons. discriminate.
          - destruct (acl_ordered u (pa_acl_default_group a)) eqn:Ho; [|exact I]. cbn [negb].
            cbn [obj_valid]. constructor; cbn; auto using racl_cons. discriminate. }
  v_br. { unfold validate_format_acl_group_obj. destruct (negb (l =? ACL_GROUP_OBJ_SIZE)); [exact I|].
          destruct (negb (has ff WITH_ACL)); [exact I|].
          destruct (validate_acl_permissions (fld 16 p)) eqn:V; [|exact I]. cbn [negb].
          cbn [obj_valid]. constructor; cbn; auto; [|discriminate].
          intros g E. injection E as <-. apply perm_ok. exact V. }
  v_br. { unfold validate_format_acl_default. destruct (negb (l =? ACL_DEFAULT_SIZE)); [exact I|].
          destruct (negb (has ff WITH_ACL)); [exact I|].
          destruct (validate_acl_permissions (fld 16 p)) eqn:V1; [|exact I]. cbn [negb].
          destruct (validate_acl_permissions (fld 24 p)) eqn:V2; [|exact I]. cbn [negb].
          destruct (validate_acl_permissions (fld 32 p)) eqn:V3; [|exact I]. cbn [negb].
          destruct (negb (fld 40 p =? UINT64_MAX) && negb (validate_acl_permissions (fld 40 p))) eqn:V4; [exact I|].
          cbn [obj_valid]. constructor; cbn; auto; [|discriminate].
          intros u g o m E. injection E as <- <- <- <-.
          split; [apply perm_ok; assumption|]. split; [apply perm_ok; assumption|]. split; [apply perm_ok; assumption|].
          unfold is_perm_opt. destruct (N.eqb_spec (fld 40 p) UINT64_MAX) as [Q | Q]; [auto|].
          cbn [negb andb] in V4. left. apply perm_ok. apply Bool.negb_false_iff in V4. exact V4. }
  v_br. { unfold validate_format_selinux. destruct (N.ltb_spec l (HDR + 2)) as [L | L]; [exact I|].
          destruct (negb (has ff WITH_SELINUX)); [exact I|].
          destruct (negb (last (body HDR l p) 1 =? 0)); [exact I|].
          destruct (no_nul (removelast (body HDR l p))) eqn:V; [|exact I]. cbn [negb].
          cbn [obj_valid]. constructor; cbn; auto.
          intros s E. injection E as <-. split; [|apply no_nul_ok, V].
          clear - L Hc. intros E. assert (X := len_removelast (body HDR l p)). rewrite body_len in X by (unfold HDR in *; lia).
          rewrite E in X. change (len (@nil N)) with 0 in X. unfold HDR in *. lia. }
  v_br. { cbn [obj_valid]. constructor; cbn; auto. }
  v_br. { unfold validate_format_quota_projid. destruct (negb (l =? QUOTA_PROJID_SIZE)); [exact I|].
          destruct (N.eqb_spec (fld 16 p) 0) as [Q | Q]; [exact I|].
          destruct (N.ltb_spec UINT32_MAX (fld 16 p)) as [Q2 | Q2]; [exact I|].
          cbn [obj_valid]. constructor; cbn; auto. intros q E. injection E as <-. clear - Q Q2. lia. }
  v_br. { unfold validate_format_symlink. destruct (N.ltb_spec l (HDR + 1)) as [L | L]; [exact I|].
          destruct (negb (has ff WITH_SYMLINKS)); [exact I|].
          unfold validate_symlink_target.
          destruct (N.ltb_spec (len (body HDR l p)) 2) as [L1 | L1]; [exact I|].
          destruct (negb (last (body HDR l p) 1 =? 0)); [exact I|].
          destruct (no_nul (removelast (body HDR l p))) eqn:V; [|exact I]. cbn [negb].
          destruct (N.ltb_spec 4096 (len (body HDR l p))) as [L2 | L2]; [exact I|]. cbn [negb].
          cbn [obj_valid]. split; [exact P|]. intros e' E. assert (e' = e) by congruence. subst e'.
          assert (X := len_removelast (body HDR l p)).
          repeat split.
          - match goal with H : negb (S_ISLNK _) = false |- _ => apply Bool.negb_false_iff in H; exact H end.
          - intros E'. rewrite E' in X. change (len (@nil N)) with 0 in X. clear - X L1. lia.
          - apply no_nul_ok, V.
          - clear - X L2. lia. }
  v_br. { unfold validate_format_device. destruct (negb (l =? DEVICE_SIZE)); [exact I|].
          destruct (negb (has ff WITH_DEVICE_NODES)); [exact I|].
          unfold validate_major, validate_minor.
          destruct (N.ltb_spec (fld 16 p) 4096) as [Q | Q]; [|exact I]. cbn [negb].
          destruct (N.ltb_spec (fld 24 p) 1048576) as [Q2 | Q2]; [|exact I]. cbn [negb].
          cbn [obj_valid]. split; [exact P|]. intros e' E. assert (e' = e) by congruence. subst e'.
          repeat split; auto.
          match goal with H : negb (S_ISCHR _) && negb (S_ISBLK _) = false |- _ => revert H end.
          destruct (S_ISCHR (pe_mode e)), (S_ISBLK (pe_mode e)); cbn; congruence. }
  apply val_if; intros ?.
  { v_bad. cbn [obj_valid]. split; [exact P|]. intros e' E. assert (e' = e) by congruence. subst e'. cbn.
    match goal with H : negb (S_ISREG _) = false |- _ => apply Bool.negb_false_iff in H; exact H end. }
  v_br. { destruct (validate_format_filename l p); [|exact I]. cbn [obj_valid pend_ok]. auto. }
  v_br. { destruct (validate_format_goodbye l p); [|exact I]. cbn [obj_valid pend_ok]. auto. }
  exact I.
Qed.

(** ** The result of the loop *)

(** What a parsed entry is the beginning of. *)
Inductive entry_shape : dentry -> Prop :=
| ES_reg m s : valid_meta m -> S_ISREG (m_mode m) = true -> entry_shape (mkDentry m None None (Some s))
| ES_dir m : valid_meta m -> S_ISDIR (m_mode m) = true -> entry_shape (mkDentry m None None None)
| ES_lnk m t : valid_meta m -> S_ISLNK (m_mode m) = true -> t <> [] -> ~ In 0 t -> len t <= 4095 ->
    entry_shape (mkDentry m (Some t) None None)
| ES_dev m x y : valid_meta m -> (S_ISBLK (m_mode m) || S_ISCHR (m_mode m))%bool = true -> x < 4096 -> y < 1048576 ->
    entry_shape (mkDentry m None (Some (x, y)) None)
| ES_other m : valid_meta m -> (S_ISFIFO (m_mode m) || S_ISSOCK (m_mode m))%bool = true ->
    entry_shape (mkDentry m None None None).

Lemma nonempty_false {A} (l : list A) : nonempty l = false -> l = [].
Proof. destruct l; [reflexivity|discriminate]. Qed.
Lemma some_false {A} (o : option A) : some o = false -> o = None.
Proof. destruct o; [discriminate|reflexivity]. Qed.

Lemma type_excl m t1 t2 : t1 <> t2 -> is_type m t1 = true -> is_type m t2 = false.
Proof. unfold is_type. intros H E. apply N.eqb_eq in E. rewrite E. apply N.eqb_neq. exact H. Qed.

Lemma parse_dentry_shape root ff a e w : pacc_ok a -> pa_entry a = Some e -> pend_ok e w ->
  parse_checks root ff a e w = true -> entry_shape (parse_dentry a e w).
Proof.
  intros P He Hw C.
  assert (Hm : dt_meta (parse_dentry a e w) = dt_meta (parse_dentry a e PFilename)).
  { unfold parse_dentry. destruct (opt_or _ _) as [[[? ?] ?] ?]. reflexivity. }
  set (m := dt_meta (parse_dentry a e PFilename)) in *.
  assert (Hmode : m_mode m = pe_mode e).
  { unfold m, parse_dentry. destruct (opt_or _ _) as [[[? ?] ?] ?]. reflexivity. }
  unfold parse_checks in C.
  Ltac ck C H := match type of C with (if ?c then false else _) = true => destruct c eqn:H; [discriminate|] end.
  ck C K1. ck C K2. ck C K3. ck C K4. ck C K5. ck C K6. ck C K7. ck C K8. ck C K9. ck C K10. ck C K11. ck C K12. ck C K13. ck C K14.
  apply Bool.negb_true_iff in C.
  assert (V : valid_meta m).
  { destruct P as [p1 p2 p3 p4 p5 p6 p7 p8 p9 p10 p11 p12 p13 p14].
    destruct (p1 e He) as (q1 & q2 & q3 & q4 & q5).
    unfold m, parse_dentry, opt_or.
    destruct (pa_acl_default a) as [[[[du dg] d_o] dm]|] eqn:Ed.
    - destruct (p11 _ _ _ _ eq_refl) as (r1 & r2 & r3 & r4).
      constructor; cbn; auto; unfold is_perm_opt, is_acl_list; auto.
      + apply Forall_rev. exact p4.
      + apply rsorted_rev. exact p5.
      + destruct p6. split; [apply Forall_rev|apply rsorted_rev]; assumption.
      + destruct p7. split; [apply Forall_rev|apply rsorted_rev]; assumption.
      + destruct (pa_acl_group_obj a) as [g|]; auto.
      + destruct p8. split; [apply Forall_rev|apply rsorted_rev]; assumption.
      + destruct p9. split; [apply Forall_rev|apply rsorted_rev]; assumption.
      + intros H E.
        destruct (pa_acl_group_obj a) as [g|] eqn:Eg; [specialize (p10 _ eq_refl); subst g; unfold UINT64_MAX in p10; lia|].
        cbn [some negb] in K13. rewrite Bool.andb_true_r in K13. apply Bool.orb_false_iff in K13.
        destruct K13 as [K K']. apply nonempty_false in K, K'. rewrite K, K' in H. cbn in H. destruct H; congruence.
      + intros H E. subst dm. rewrite N.eqb_refl, Bool.andb_true_r in K14. apply Bool.orb_false_iff in K14.
        destruct K14 as [K K']. apply nonempty_false in K, K'. rewrite K, K' in H. cbn in H. destruct H; congruence.
      + intros H. exfalso. rewrite H in C. cbn [some] in C. rewrite Bool.orb_true_r in C. cbn in C. congruence.
      + intros H. rewrite H in K8. cbn [negb andb] in K8. apply some_false. exact K8.
      + intros q E. split; [apply p14; exact E|]. rewrite E in K9. cbn [some] in K9. rewrite Bool.andb_true_r in K9.
        apply Bool.negb_false_iff in K9. exact K9.
      + intros H. split; [apply q4, H|]. rewrite H in K12. cbn [andb] in K12. apply Bool.orb_false_iff in K12.
        destruct K12 as [K K']. apply nonempty_false in K. destruct (p12 K') as (z1 & z2 & z3). rewrite K, z1, z2, z3.
        auto.
      + intros H. apply N.eqb_neq in H. rewrite H in K10. cbn [negb andb] in K10.
        destruct (S_ISREG (pe_mode e)); [reflexivity|]. cbn [negb andb] in K10. apply Bool.negb_false_iff in K10. rewrite K10. reflexivity.
    - constructor; cbn; auto; unfold is_perm_opt, is_acl_list; auto.
      + apply Forall_rev. exact p4.
      + apply rsorted_rev. exact p5.
      + destruct p6. split; [apply Forall_rev|apply rsorted_rev]; assumption.
      + destruct p7. split; [apply Forall_rev|apply rsorted_rev]; assumption.
      + destruct (pa_acl_group_obj a) as [g|]; auto.
      + destruct p8. split; [apply Forall_rev|apply rsorted_rev]; assumption.
      + destruct p9. split; [apply Forall_rev|apply rsorted_rev]; assumption.
      + intros H E.
        destruct (pa_acl_group_obj a) as [g|] eqn:Eg; [specialize (p10 _ eq_refl); subst g; unfold UINT64_MAX in p10; lia|].
        cbn [some negb] in K13. rewrite Bool.andb_true_r in K13. apply Bool.orb_false_iff in K13.
        destruct K13 as [K K']. apply nonempty_false in K, K'. rewrite K, K' in H. cbn in H. destruct H; congruence.
      + intros H E. rewrite Bool.andb_true_r in K14. apply Bool.orb_false_iff in K14.
        destruct K14 as [K K']. apply nonempty_false in K, K'. rewrite K, K' in H. cbn in H. destruct H; congruence.
      + intros H. rewrite Bool.andb_true_r in K14. apply Bool.orb_false_iff in K14.
        destruct K14 as [K K']. apply nonempty_false in K, K'. rewrite K, K'. cbn. tauto.
      + intros H. rewrite H in K8. cbn [negb andb] in K8. apply some_false. exact K8.
      + intros q E. split; [apply p14; exact E|]. rewrite E in K9. cbn [some] in K9. rewrite Bool.andb_true_r in K9.
        apply Bool.negb_false_iff in K9. exact K9.
      + intros H. split; [apply q4, H|]. rewrite H in K12. cbn [andb] in K12. apply Bool.orb_false_iff in K12.
        destruct K12 as [K K']. apply nonempty_false in K. destruct (p12 K') as (z1 & z2 & z3). rewrite K, z1, z2, z3.
        auto.
      + intros H. apply N.eqb_neq in H. rewrite H in K10. cbn [negb andb] in K10.
        destruct (S_ISREG (pe_mode e)); [reflexivity|]. cbn [negb andb] in K10. apply Bool.negb_false_iff in K10. rewrite K10. reflexivity. }
  assert (Hd : parse_dentry a e w = mkDentry m (match w with PSymlink s => Some s | _ => None end)
    (match w with PDevice x y => Some (x, y) | _ => None end) (match w with PPayload s => Some s | _ => None end)).
  { rewrite <- Hm. unfold parse_dentry. destruct (opt_or _ _) as [[[? ?] ?] ?]. reflexivity. }
  rewrite Hd. rewrite <- Hmode in *.
  destruct w as [s|x y|s| |]; cbn [pend_ok] in Hw; rewrite <- ?Hmode in Hw.
  - apply ES_lnk; tauto.
  - apply ES_dev; tauto.
  - apply ES_reg; tauto.
  - destruct (S_ISDIR (m_mode m)) eqn:D; [apply ES_dir; assumption|].
    apply ES_other; [assumption|].
    destruct (po_entry _ P e He) as (_ & _ & _ & _ & t & Ht & Htm). rewrite <- Hmode in Htm.
    cbn [negb andb] in *. rewrite Bool.andb_true_r in *.
    cbn in Ht. destruct Ht as [<-|[<-|[<-|[<-|[<-|[<-|[<-|[]]]]]]]]; rewrite ?Htm in *; cbn in *; try congruence;
      rewrite ?Bool.orb_true_r in *; try congruence; reflexivity.
  - destruct (S_ISDIR (m_mode m)) eqn:D; [apply ES_dir; assumption|].
    apply ES_other; [assumption|].
    destruct (po_entry _ P e He) as (_ & _ & _ & _ & t & Ht & Htm). rewrite <- Hmode in Htm.
    cbn [negb andb] in *. rewrite Bool.andb_true_r in *.
    cbn in Ht. destruct Ht as [<-|[<-|[<-|[<-|[<-|[<-|[<-|[]]]]]]]]; rewrite ?Htm in *; cbn in *; try congruence;
      rewrite ?Bool.orb_true_r in *; try congruence; reflexivity.
Qed.

Lemma parse_loop_shape n : forall env ar ff a p off e o ff',
  parse_loop n env ar ff a p off = (ROk e o, ff') -> pacc_ok a -> entry_shape e.
Proof.
  induction n as [|n IH]; intros env ar ff a p off e o ff' H Ha; cbn [parse_loop] in H; [discriminate|].
  pose proof (parse_obj_valid env ff a p Ha) as V.
  destruct (parse_obj env ff a p) as [[|e'|a' l|a' c w] ff1] eqn:E; cbn [obj_valid] in V; try discriminate.
  - eapply IH; eassumption.
  - destruct V as [V1 V2]. destruct (pa_entry a') as [en|] eqn:Ea; [|discriminate].
    destruct (parse_checks ar ff1 a' en w) eqn:Ec; [|discriminate].
    assert (e = parse_dentry a' en w) by congruence. subst e. eapply parse_dentry_shape; eauto.
Qed.

Lemma parse_entry_shape env ar ff p e o ff' : parse_entry env ar ff p = (ROk e o, ff') -> entry_shape e.
Proof. unfold parse_entry. intros H. eapply parse_loop_shape; eauto using pacc0_ok. Qed.
