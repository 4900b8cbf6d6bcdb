(** Decoding what the encoder writes, part 1: the records of one entry. *)
From Coq Require Import Sorted.
From Verif Require Import Base FeatureFlags ArchiveBase Bst Decoder DecoderSpec DecoderProofs DecoderProofs2 DecoderProofs5 Encoder EncoderProofs.
Local Open Scope N_scope.
Local Arguments fld : simpl never.
Local Arguments body : simpl never.

Lemma len_obj t b : len (obj t b) = 16 + len b.
Proof. unfold obj. rewrite !len_app, !len_le64. lia. Qed.
Lemma fld_app_l o p x : o + 8 <= len p -> fld o (p ++ x) = fld o p.
Proof. apply fld_ext. Qed.
Lemma fld_drop o k p : fld (o + k) p = fld k (dropN o p).
Proof. unfold fld. rewrite dropN_dropN'. reflexivity. Qed.
Lemma fld_0_le64 n x : n < two64 -> fld 0 (le64 n ++ x) = n.
Proof. intros H. unfold fld. rewrite dropN_0. apply rd64_le64, H. Qed.
Lemma fld_skip o a x : o = len a -> fld o (a ++ x) = fld 0 x.
Proof. intros ->. unfold fld. rewrite dropN_app_exact by reflexivity. rewrite dropN_0. reflexivity. Qed.
Lemma fld_next o n x : 8 <= o -> fld o (le64 n ++ x) = fld (o - 8) x.
Proof. intros H. unfold fld. rewrite dropN_app_ge by (rewrite len_le64; lia). rewrite len_le64. reflexivity. Qed.

Section Obj.
Variables (t : N) (b x : list N).
Lemma obj_len : len (obj t b ++ x) = 16 + len b + len x.
Proof. rewrite len_app, len_obj. lia. Qed.
Lemma obj_size : 16 + len b < UINT64_MAX -> fld 0 (obj t b ++ x) = 16 + len b.
Proof. intros Hb. unfold obj. rewrite <- app_assoc. apply fld_0_le64. unfold HDR, UINT64_MAX, two64 in *. lia. Qed.
Lemma obj_type : t < two64 -> fld 8 (obj t b ++ x) = t.
Proof. intros Ht. unfold obj. rewrite <- app_assoc. rewrite fld_next by lia. rewrite <- app_assoc. apply fld_0_le64, Ht. Qed.
Lemma obj_body : body 16 (16 + len b) (obj t b ++ x) = b.
Proof.
  unfold body, obj. replace (16 + len b - 16) with (len b) by lia.
  rewrite <- !app_assoc, app_assoc. rewrite dropN_app_exact by (rewrite len_app, !len_le64; reflexivity).
  apply takeN_app_exact. reflexivity.
Qed.
Lemma obj_body_at h : h <= len b -> body (16 + h) (16 + len b) (obj t b ++ x) = dropN h b.
Proof.
  intros H. pose proof obj_body as B. unfold body in *. replace (16 + len b - 16) with (len b) in B by lia.
  replace (16 + len b - (16 + h)) with (len b - h) by lia.
  rewrite <- dropN_dropN'. rewrite <- B at 3. unfold takeN, dropN. rewrite skipn_firstn_comm. f_equal. lia.
Qed.
Lemma obj_fld o : o + 8 <= len b -> fld (16 + o) (obj t b ++ x) = fld o b.
Proof.
  intros H. rewrite fld_drop. unfold obj.
  rewrite <- !app_assoc, app_assoc. rewrite dropN_app_exact by (rewrite len_app, !len_le64; reflexivity).
  apply fld_app_l, H.
Qed.
Lemma obj_rest : dropN (16 + len b) (obj t b ++ x) = x.
Proof. apply dropN_app_exact, len_obj. Qed.
End Obj.

Lemma if_leb_true {A} a b (x y : A) : a <= b -> (if negb (a <=? b) then x else y) = y.
Proof. intros H. apply N.leb_le in H. rewrite H. reflexivity. Qed.
Lemma if_ltb_false {A} a b (x y : A) : b <= a -> (if a <? b then x else y) = y.
Proof. intros H. apply N.ltb_ge in H. rewrite H. reflexivity. Qed.
Lemma if_eqb_false {A} a b (x y : A) : a <> b -> (if a =? b then x else y) = y.
Proof. intros H. apply N.eqb_neq in H. rewrite H. reflexivity. Qed.
Lemma if_eqb_true {A} a b (x y : A) : a = b -> (if negb (a =? b) then x else y) = y.
Proof. intros ->. rewrite N.eqb_refl. reflexivity. Qed.
Lemma if_b {A} (c : bool) (x y : A) : c = true -> (if negb c then x else y) = y.
Proof. intros ->. reflexivity. Qed.
Lemma if_f {A} (c : bool) (x y : A) : c = false -> (if c then x else y) = y.
Proof. intros ->. reflexivity. Qed.

Lemma F_types : Forall (fun t => t < two64) [F_ENTRY; F_USER; F_GROUP; F_XATTR; F_ACL_USER; F_ACL_GROUP; F_ACL_GROUP_OBJ; F_ACL_DEFAULT;
  F_ACL_DEFAULT_USER; F_ACL_DEFAULT_GROUP; F_FCAPS; F_QUOTA_PROJID; F_SELINUX; F_SYMLINK; F_DEVICE; F_PAYLOAD; F_FILENAME; F_GOODBYE].
Proof. repeat constructor. Qed.

(** Evaluate comparisons of type codes. *)
Ltac code_eq a b := let v := eval vm_compute in (a =? b) in change (a =? b) with v.
Ltac codes t := code_eq t F_ENTRY; code_eq t F_USER; code_eq t F_GROUP; code_eq t F_XATTR; code_eq t F_ACL_USER; code_eq t F_ACL_DEFAULT_USER;
  code_eq t F_ACL_GROUP; code_eq t F_ACL_DEFAULT_GROUP; code_eq t F_ACL_GROUP_OBJ; code_eq t F_ACL_DEFAULT; code_eq t F_SELINUX; code_eq t F_FCAPS;
  code_eq t F_QUOTA_PROJID; code_eq t F_SYMLINK; code_eq t F_DEVICE; code_eq t F_PAYLOAD; code_eq t F_FILENAME; code_eq t F_GOODBYE; cbn [orb andb].
(** Enter parse_obj for a complete record of known type. *)
Ltac enter_obj t Hb :=
  unfold parse_obj; cbv zeta;
  rewrite (obj_len t), (obj_type t) by reflexivity; rewrite (obj_size t) by exact Hb;
  rewrite (if_ltb_false (16 + _ + _) HDR) by (unfold HDR; lia);
  rewrite (if_ltb_false (16 + _) HDR) by (unfold HDR; lia);
  rewrite (if_eqb_false (16 + _) UINT64_MAX) by (clear -Hb; lia);
  codes t;
  cbn [pa_entry pa_user pa_group pa_xattrs pa_acl_user pa_acl_group pa_acl_group_obj pa_acl_default pa_acl_default_user pa_acl_default_group
       pa_have_acl pa_selinux pa_fcaps pa_projid some nonempty orb andb tail_seen];
  rewrite ?(if_leb_true (16 + _) (16 + _ + _)) by lia.

Section Recs.
Variables (env : denv) (ff : N).

Lemma validate_user_group_name_ok n : is_user_name n -> validate_user_group_name (n ++ [0]) = true.
Proof.
  intros (A & B & C & D & F). unfold validate_user_group_name.
  destruct n as [|c n]; [congruence|]. rewrite len_app. change (len [0]) with 1. rewrite len_cons in *.
  rewrite if_ltb_false by lia. rewrite last_last. cbn [negb N.eqb]. change (0 =? 0) with true. cbn [negb].
  rewrite removelast_last. cbn [app hd tl]. cbn [hd tl] in B, C.
  assert (X : is_alpha_ c = true).
  { unfold is_alpha_. destruct B as [H | [H | H]]; apply orb_true_iff.
    - left. apply orb_true_iff. left. apply andb_true_iff. split; apply N.leb_le; lia.
    - left. apply orb_true_iff. right. apply andb_true_iff. split; apply N.leb_le; lia.
    - right. apply N.eqb_eq, H. }
  rewrite X. cbn [negb].
  assert (Y : forallb is_name_char n = true).
  { apply forallb_forall. intros z Hz. rewrite Forall_forall in C. specialize (C z Hz). unfold is_name_char, is_alpha_.
    rewrite !orb_true_iff, !andb_true_iff, !N.leb_le, !N.eqb_eq. unfold letter_ in C. lia. }
  rewrite Y. cbn [negb]. rewrite if_ltb_false by lia.
  rewrite if_f; [|apply beq_neq; intros E; change (root_name ++ [0]) with (root_name ++ [0]) in E; apply F;
     apply (f_equal (@removelast N)) in E; rewrite removelast_last in E; change (c :: n ++ [0]) with ((c :: n) ++ [0]) in E; rewrite removelast_last in E; exact E].
  apply negb_true_iff, beq_neq. intros E. injection E as -> E. destruct n; discriminate.
Qed.

Lemma rec_user e n x : is_user_name n -> has ff WITH_USER_NAMES = true ->
  parse_obj env ff (mkPacc (Some e) None None [] [] [] None None [] [] false None None None) (obj F_USER (n ++ [0]) ++ x) =
  (PCont (mkPacc (Some e) (Some n) None [] [] [] None None [] [] false None None None) (16 + len (n ++ [0])), ff).
Proof.
  intros Hn Hf. pose proof Hn as (N1 & _ & _ & N2 & N3).
  assert (L : len (n ++ [0]) = len n + 1) by (rewrite len_app; reflexivity).
  assert (Hb : 16 + len (n ++ [0]) < UINT64_MAX) by (unfold UINT64_MAX; lia).
  enter_obj F_USER Hb. rewrite if_ltb_false by (unfold USER_SIZE_MAX, HDR; lia).
  unfold validate_format_ugname. rewrite if_ltb_false by (unfold HDR; lia). rewrite (if_b (has ff WITH_USER_NAMES)) by exact Hf.
  change HDR with 16. rewrite (obj_body F_USER). rewrite if_b by (apply validate_user_group_name_ok, Hn). rewrite removelast_last.
  rewrite if_f; [reflexivity|]. rewrite (proj2 (beq_neq n root_name)) by exact N3. apply andb_false_r.
Qed.
Lemma rec_group e u n x : is_user_name n -> has ff WITH_USER_NAMES = true ->
  parse_obj env ff (mkPacc (Some e) u None [] [] [] None None [] [] false None None None) (obj F_GROUP (n ++ [0]) ++ x) =
  (PCont (mkPacc (Some e) u (Some n) [] [] [] None None [] [] false None None None) (16 + len (n ++ [0])), ff).
Proof.
  intros Hn Hf. pose proof Hn as (N1 & _ & _ & N2 & N3).
  assert (L : len (n ++ [0]) = len n + 1) by (rewrite len_app; reflexivity).
  assert (Hb : 16 + len (n ++ [0]) < UINT64_MAX) by (unfold UINT64_MAX; lia).
  enter_obj F_GROUP Hb. rewrite if_ltb_false by (unfold GROUP_SIZE_MAX, HDR; lia).
  unfold validate_format_ugname. rewrite if_ltb_false by (unfold HDR; lia). rewrite (if_b (has ff WITH_USER_NAMES)) by exact Hf.
  change HDR with 16. rewrite (obj_body F_GROUP). rewrite if_b by (apply validate_user_group_name_ok, Hn). rewrite removelast_last.
  rewrite if_f; [reflexivity|]. rewrite (proj2 (beq_neq n root_name)) by exact N3. apply andb_false_r.
Qed.

Lemma split_nul_app n v : ~ In 0 n -> split_nul (n ++ 0 :: v) = Some (n, v).
Proof.
  induction n as [|c n IH]; intros H; [reflexivity|]. cbn.
  destruct (N.eqb_spec c 0) as [-> | E]; [exfalso; apply H; left; reflexivity|].
  rewrite IH; [reflexivity|]. intros X. apply H. right. exact X.
Qed.
Lemma split_dot_app a b : ~ In 46 a -> split_dot (a ++ 46 :: b) = Some (a, b).
Proof.
  induction a as [|c n IH]; intros H; [reflexivity|]. cbn.
  destruct (N.eqb_spec c 46) as [-> | E]; [exfalso; apply H; left; reflexivity|].
  rewrite IH; [reflexivity|]. intros X. apply H. right. exact X.
Qed.
Lemma len_pos {A} (l : list A) : l <> [] -> 0 < len l.
Proof. destruct l; [congruence|]. rewrite len_cons. lia. Qed.
Lemma xattr_name_ok n : is_xattr_name n -> xattr_name_is_valid n = true /\ 3 <= len n.
Proof.
  intros ((a & b & -> & A & B & C) & D & F). unfold xattr_name_is_valid. cbn [app].
  assert (La := len_pos _ A). assert (Lb := len_pos _ B). rewrite len_app, len_app in F. change (len [46]) with 1 in F.
  rewrite len_app, len_cons. split; [|lia]. rewrite if_eqb_false by lia. rewrite split_dot_app by exact C.
  rewrite !if_eqb_false by lia. apply negb_true_iff, N.ltb_ge. lia.
Qed.

Lemma rec_xattr e u g prev n v x : is_xattr_name n -> len v <= 65536 -> has ff WITH_XATTRS = true -> xattr_ordered n prev = true ->
  parse_obj env ff (mkPacc (Some e) u g prev [] [] None None [] [] false None None None) (obj F_XATTR (n ++ [0] ++ v) ++ x) =
  (PCont (mkPacc (Some e) u g ((n, v) :: prev) [] [] None None [] [] false None None None) (16 + len (n ++ [0] ++ v)), ff).
Proof.
  intros Hn Hv Hf Ho. pose proof Hn as (_ & N1 & N2). destruct (xattr_name_ok n Hn) as [N3 N4].
  assert (L : len (n ++ [0] ++ v) = len n + 1 + len v) by (rewrite !len_app; change (len [0]) with 1; lia).
  assert (Hb : 16 + len (n ++ [0] ++ v) < UINT64_MAX) by (unfold UINT64_MAX; lia).
  enter_obj F_XATTR Hb. rewrite if_ltb_false by (unfold XATTR_SIZE_MAX, HDR; lia).
  unfold validate_format_xattr. rewrite if_ltb_false by (unfold HDR; lia). rewrite (if_b (has ff WITH_XATTRS)) by exact Hf.
  change HDR with 16. rewrite (obj_body F_XATTR).
  replace (takeN (N.min 256 (16 + len (n ++ [0] ++ v) - 16)) (n ++ [0] ++ v)) with (n ++ 0 :: takeN (N.min 256 (16 + len (n ++ [0] ++ v) - 16) - len n - 1) v).
  - rewrite split_nul_app by exact N1. rewrite if_b by exact N3.
    replace (dropN (len n + 1) (n ++ [0] ++ v)) with v.
    + rewrite if_b by exact Ho. reflexivity.
    + rewrite app_assoc. rewrite dropN_app_exact by (rewrite len_app; reflexivity). reflexivity.
  - rewrite takeN_app_ge by lia. f_equal. rewrite takeN_app_ge by (change (len [0]) with 1; lia). reflexivity.
Qed.

Definition acl_bytes (a : acl_ent) : list N :=
  le64 (ae_id a) ++ le64 (ae_perm a) ++ match ae_name a with Some n => n ++ [0] | None => [] end.
Lemma len_acl_bytes a : len (acl_bytes a) = 16 + match ae_name a with Some n => len n + 1 | None => 0 end.
Proof. unfold acl_bytes. rewrite !len_app, !len_le64. destruct (ae_name a); [rewrite len_app; change (len [0]) with 1|change (@len N []) with 0]; lia. Qed.

Definition dec_acl (a : acl_ent) : Prop :=
  is_acl_ent a /\ validate_uid_gid ff (ae_id a) = true /\ (ae_name a <> None -> has ff WITH_USER_NAMES = true).

Lemma perm_ok p : p <= 7 -> validate_acl_permissions p = true.
Proof.
  intros H. unfold validate_acl_permissions. assert (p = 0 \/ p = 1 \/ p = 2 \/ p = 3 \/ p = 4 \/ p = 5 \/ p = 6 \/ p = 7) as P by lia.
  destruct P as [-> | [-> | [-> | [-> | [-> | [-> | [-> | ->]]]]]]]; reflexivity.
Qed.
Lemma acl_len a : dec_acl a -> len (acl_bytes a) <= 272.
Proof.
  intros ((_ & _ & H) & _). rewrite len_acl_bytes. destruct (ae_name a) as [n|]; [|lia].
  destruct (H n eq_refl) as (_ & _ & _ & L & _). lia.
Qed.
Lemma rec_acl_val t a x : t < two64 -> dec_acl a -> has ff WITH_ACL = true ->
  validate_format_acl_ug ff (16 + len (acl_bytes a)) (obj t (acl_bytes a) ++ x) = Some a.
Proof.
  intros Ht D Hf. pose proof D as ((I & P & M) & V & U). pose proof (acl_len a D) as L. pose proof (len_acl_bytes a) as L2. unfold ACL_SIZE_MAX, ACL_HDR in *.
  assert (Hb : 16 + len (acl_bytes a) < UINT64_MAX) by (unfold UINT64_MAX; lia).
  unfold is_perm, is_id, UINT32_MAX in *.
  unfold validate_format_acl_ug.
  assert (L3 : 16 <= len (acl_bytes a)) by lia.
  rewrite if_ltb_false by (unfold ACL_HDR; lia). rewrite (if_b (has ff WITH_ACL)) by exact Hf.
  change (fld 16) with (fld (16 + 0)). change (fld 24) with (fld (16 + 8)). rewrite !(obj_fld t) by lia.
  assert (E0 : fld 0 (acl_bytes a) = ae_id a) by (unfold acl_bytes; apply fld_0_le64; unfold two64; lia).
  assert (E8 : fld 8 (acl_bytes a) = ae_perm a) by (unfold acl_bytes; rewrite fld_next by lia; apply fld_0_le64; unfold two64; lia).
  rewrite E0, E8, V, perm_ok by exact P. cbn [negb].
  change (body ACL_HDR) with (body (16 + 16)). rewrite (obj_body_at t) by lia.
  assert (E : dropN 16 (acl_bytes a) = match ae_name a with Some n => n ++ [0] | None => [] end).
  { unfold acl_bytes. rewrite app_assoc. apply dropN_app_exact. rewrite len_app, !len_le64. reflexivity. }
  rewrite E. destruct a as [i [n|] p]; cbn [ae_id ae_name ae_perm] in *.
  - assert (Z : (ACL_HDR <? 16 + len (acl_bytes (mkAclEnt i (Some n) p))) = true) by (apply N.ltb_lt; unfold ACL_HDR; lia).
    rewrite Z, U by discriminate. cbn [andb negb]. rewrite validate_user_group_name_ok by (apply M; reflexivity). cbn [negb].
    rewrite removelast_last. reflexivity.
  - assert (Z : (ACL_HDR <? 16 + len (acl_bytes (mkAclEnt i None p))) = false) by (apply N.ltb_ge; unfold ACL_HDR; lia).
    rewrite Z. reflexivity.
Qed.

Ltac acl_tac t D L Ho :=
  enter_obj t L; rewrite if_ltb_false by (pose proof (acl_len _ D); unfold ACL_SIZE_MAX, ACL_HDR; lia);
  rewrite rec_acl_val by (assumption || reflexivity); rewrite if_b by exact Ho; reflexivity.

Lemma acl_lt a : dec_acl a -> 16 + len (acl_bytes a) < UINT64_MAX.
Proof. intros D. pose proof (acl_len a D). unfold UINT64_MAX. lia. Qed.

Lemma rec_acl_user e u g xs prev h a x : dec_acl a -> has ff WITH_ACL = true -> acl_ordered a prev = true ->
  parse_obj env ff (mkPacc (Some e) u g xs prev [] None None [] [] h None None None) (obj F_ACL_USER (acl_bytes a) ++ x) =
  (PCont (mkPacc (Some e) u g xs (a :: prev) [] None None [] [] true None None None) (16 + len (acl_bytes a)), ff).
Proof. intros D Hf Ho. pose proof (acl_lt a D) as L. acl_tac F_ACL_USER D L Ho. Qed.
Lemma rec_acl_group e u g xs us prev h a x : dec_acl a -> has ff WITH_ACL = true -> acl_ordered a prev = true ->
  parse_obj env ff (mkPacc (Some e) u g xs us prev None None [] [] h None None None) (obj F_ACL_GROUP (acl_bytes a) ++ x) =
  (PCont (mkPacc (Some e) u g xs us (a :: prev) None None [] [] true None None None) (16 + len (acl_bytes a)), ff).
Proof. intros D Hf Ho. pose proof (acl_lt a D) as L. acl_tac F_ACL_GROUP D L Ho. Qed.
Lemma rec_acl_duser e u g xs us gs go df prev h a x : dec_acl a -> has ff WITH_ACL = true -> acl_ordered a prev = true ->
  parse_obj env ff (mkPacc (Some e) u g xs us gs go df prev [] h None None None) (obj F_ACL_DEFAULT_USER (acl_bytes a) ++ x) =
  (PCont (mkPacc (Some e) u g xs us gs go df (a :: prev) [] true None None None) (16 + len (acl_bytes a)), ff).
Proof. intros D Hf Ho. pose proof (acl_lt a D) as L. acl_tac F_ACL_DEFAULT_USER D L Ho. Qed.
Lemma rec_acl_dgroup e u g xs us gs go df du prev h a x : dec_acl a -> has ff WITH_ACL = true -> acl_ordered a prev = true ->
  parse_obj env ff (mkPacc (Some e) u g xs us gs go df du prev h None None None) (obj F_ACL_DEFAULT_GROUP (acl_bytes a) ++ x) =
  (PCont (mkPacc (Some e) u g xs us gs go df du (a :: prev) true None None None) (16 + len (acl_bytes a)), ff).
Proof. intros D Hf Ho. pose proof (acl_lt a D) as L. acl_tac F_ACL_DEFAULT_GROUP D L Ho. Qed.

Lemma rec_acl_group_obj e u g xs us gs h p x : p <= 7 -> has ff WITH_ACL = true ->
  parse_obj env ff (mkPacc (Some e) u g xs us gs None None [] [] h None None None) (obj F_ACL_GROUP_OBJ (le64 p) ++ x) =
  (PCont (mkPacc (Some e) u g xs us gs (Some p) None [] [] true None None None) (16 + len (le64 p)), ff).
Proof.
  intros P Hf. assert (Hb : 16 + len (le64 p) < UINT64_MAX) by (rewrite len_le64; reflexivity).
  enter_obj F_ACL_GROUP_OBJ Hb. rewrite if_eqb_true by (rewrite len_le64; reflexivity).
  unfold validate_format_acl_group_obj. rewrite if_eqb_true by (rewrite len_le64; reflexivity). rewrite (if_b (has ff WITH_ACL)) by exact Hf.
  change (fld 16) with (fld (16 + 0)). rewrite !(obj_fld F_ACL_GROUP_OBJ) by (rewrite len_le64; lia).
  assert (E : fld 0 (le64 p) = p) by (rewrite <- (app_nil_r (le64 p)); apply fld_0_le64; unfold two64; lia).
  rewrite E, perm_ok by exact P. reflexivity.
Qed.

Lemma rec_acl_default e u g xs us gs go h du dg d_o dm x : du <= 7 -> dg <= 7 -> d_o <= 7 -> (dm <= 7 \/ dm = UINT64_MAX) -> has ff WITH_ACL = true ->
  parse_obj env ff (mkPacc (Some e) u g xs us gs go None [] [] h None None None)
    (obj F_ACL_DEFAULT (le64 du ++ le64 dg ++ le64 d_o ++ le64 dm) ++ x) =
  (PCont (mkPacc (Some e) u g xs us gs go (Some (du, dg, d_o, dm)) [] [] true None None None) (16 + len (le64 du ++ le64 dg ++ le64 d_o ++ le64 dm)), ff).
Proof.
  intros P1 P2 P3 P4 Hf. assert (L : len (le64 du ++ le64 dg ++ le64 d_o ++ le64 dm) = 32) by (rewrite !len_app, !len_le64; reflexivity).
  assert (Hb : 16 + len (le64 du ++ le64 dg ++ le64 d_o ++ le64 dm) < UINT64_MAX) by (rewrite L; reflexivity).
  enter_obj F_ACL_DEFAULT Hb. rewrite if_eqb_true by (rewrite L; reflexivity).
  unfold validate_format_acl_default. rewrite if_eqb_true by (rewrite L; reflexivity). rewrite (if_b (has ff WITH_ACL)) by exact Hf.
  change (fld 16) with (fld (16 + 0)). change (fld 24) with (fld (16 + 8)). change (fld 32) with (fld (16 + 16)). change (fld 40) with (fld (16 + 24)).
  rewrite !(obj_fld F_ACL_DEFAULT) by lia.
  assert (D : dm < two64) by (unfold two64, UINT64_MAX in *; lia).
  assert (E0 : fld 0 (le64 du ++ le64 dg ++ le64 d_o ++ le64 dm) = du) by (apply fld_0_le64; unfold two64; lia).
  assert (E1 : fld 8 (le64 du ++ le64 dg ++ le64 d_o ++ le64 dm) = dg) by (rewrite fld_next by lia; apply fld_0_le64; unfold two64; lia).
  assert (E2 : fld 16 (le64 du ++ le64 dg ++ le64 d_o ++ le64 dm) = d_o) by (rewrite !fld_next by lia; apply fld_0_le64; unfold two64; lia).
  assert (E3 : fld 24 (le64 du ++ le64 dg ++ le64 d_o ++ le64 dm) = dm) by (rewrite !fld_next by lia; change (24 - 8 - 8 - 8) with 0; rewrite <- (app_nil_r (le64 dm)); apply fld_0_le64, D).
  rewrite E0, E1, E2, E3, !perm_ok by assumption. cbn [negb].
  destruct P4 as [P4 | ->]; [rewrite perm_ok by exact P4; cbn [negb]; rewrite andb_false_r|rewrite N.eqb_refl; cbn [negb andb]]; reflexivity.
Qed.

Lemma no_nul_ok s : ~ In 0 s -> no_nul s = true.
Proof. intros H. apply forallb_forall. intros b Hb. apply negb_true_iff, N.eqb_neq. intros ->. contradiction. Qed.

Lemma rec_selinux e u g xs us gs go df dus dgs h s x : s <> [] -> ~ In 0 s -> len s <= 4095 -> has ff WITH_SELINUX = true ->
  parse_obj env ff (mkPacc (Some e) u g xs us gs go df dus dgs h None None None) (obj F_SELINUX (s ++ [0]) ++ x) =
  (PCont (mkPacc (Some e) u g xs us gs go df dus dgs h (Some s) None None) (16 + len (s ++ [0])), ff).
Proof.
  intros S1 S2 S3 Hf. assert (Ls := len_pos _ S1). assert (L : len (s ++ [0]) = len s + 1) by (rewrite len_app; reflexivity).
  assert (Hb : 16 + len (s ++ [0]) < UINT64_MAX) by (unfold UINT64_MAX; lia).
  enter_obj F_SELINUX Hb. rewrite if_ltb_false by (unfold SELINUX_SIZE_MAX, HDR; lia).
  unfold validate_format_selinux. rewrite if_ltb_false by (unfold HDR; lia). rewrite (if_b (has ff WITH_SELINUX)) by exact Hf.
  change HDR with 16. rewrite (obj_body F_SELINUX). rewrite last_last, removelast_last, no_nul_ok by exact S2. reflexivity.
Qed.
Lemma rec_fcaps e u g xs us gs go df dus dgs h se s x : len s <= 65536 ->
  parse_obj env ff (mkPacc (Some e) u g xs us gs go df dus dgs h se None None) (obj F_FCAPS s ++ x) =
  (PCont (mkPacc (Some e) u g xs us gs go df dus dgs h se (Some s) None) (16 + len s), ff).
Proof.
  intros S. assert (Hb : 16 + len s < UINT64_MAX) by (unfold UINT64_MAX; lia).
  enter_obj F_FCAPS Hb. rewrite if_ltb_false by (unfold FCAPS_SIZE_MAX, HDR; lia).
  change HDR with 16. rewrite (obj_body F_FCAPS). reflexivity.
Qed.
Lemma rec_projid e u g xs us gs go df dus dgs h se fc q x : 0 < q <= UINT32_MAX ->
  parse_obj env ff (mkPacc (Some e) u g xs us gs go df dus dgs h se fc None) (obj F_QUOTA_PROJID (le64 q) ++ x) =
  (PCont (mkPacc (Some e) u g xs us gs go df dus dgs h se fc (Some q)) (16 + len (le64 q)), ff).
Proof.
  intros Q. assert (Hb : 16 + len (le64 q) < UINT64_MAX) by (rewrite len_le64; reflexivity).
  enter_obj F_QUOTA_PROJID Hb. rewrite if_eqb_true by (rewrite len_le64; reflexivity).
  unfold validate_format_quota_projid. rewrite if_eqb_true by (rewrite len_le64; reflexivity).
  change (fld 16) with (fld (16 + 0)). rewrite !(obj_fld F_QUOTA_PROJID) by (rewrite len_le64; lia).
  assert (E : fld 0 (le64 q) = q) by (rewrite <- (app_nil_r (le64 q)); apply fld_0_le64; unfold two64, UINT32_MAX in *; lia).
  rewrite E. rewrite if_eqb_false by lia. rewrite if_ltb_false by lia. reflexivity.
Qed.
End Recs.
