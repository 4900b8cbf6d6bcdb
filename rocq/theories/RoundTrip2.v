(** Decoding what the encoder writes, part 2: a whole entry. *)
From Coq Require Import Sorted.
From Verif Require Import Base FeatureFlags ArchiveBase Bst Decoder DecoderSpec DecoderProofs DecoderProofs2 DecoderProofs5 Encoder EncoderProofs RoundTrip1.
Local Open Scope N_scope.
Local Arguments fld : simpl never.
Local Arguments body : simpl never.

Section Entry.
Variables (env : denv) (ff : N).

(** What the decoder demands of the meta data. *)
Record dec_meta (m : meta) : Prop := mkDecMeta {
  dm_mode : validate_mode ff (m_mode m) (m_flags m) = true;
  dm_flags : validate_entry_flags ff (m_flags m) = true;
  dm_uid : validate_uid_gid ff (m_uid m) = true;
  dm_gid : validate_uid_gid ff (m_gid m) = true;
  dm_mtime : validate_nsec ff (m_mtime m) = true;
  dm_mode64 : m_mode m < two64; dm_flags64 : m_flags m < two64; dm_uid64 : m_uid m < two64; dm_gid64 : m_gid m < two64; dm_mtime64 : m_mtime m < two64;
  dm_user : forall n, m_user m = Some n -> is_user_name n /\ has ff WITH_USER_NAMES = true;
  dm_group : forall n, m_group m = Some n -> is_user_name n /\ has ff WITH_USER_NAMES = true;
  dm_xattrs : Forall (fun x => is_xattr_name (fst x) /\ len (snd x) <= 65536 /\ has ff WITH_XATTRS = true) (m_xattrs m);
  dm_xattrs_sorted : StronglySorted (fun x y => strcmp (fst x) (fst y) = Lt) (m_xattrs m);
  dm_acl_user : Forall (fun a => dec_acl ff a /\ has ff WITH_ACL = true) (m_acl_user m);
  dm_acl_user_sorted : StronglySorted (fun x y => acl_cmp x y = Lt) (m_acl_user m);
  dm_acl_group : Forall (fun a => dec_acl ff a /\ has ff WITH_ACL = true) (m_acl_group m);
  dm_acl_group_sorted : StronglySorted (fun x y => acl_cmp x y = Lt) (m_acl_group m);
  dm_group_obj : m_acl_group_obj m = UINT64_MAX \/ m_acl_group_obj m <= 7 /\ has ff WITH_ACL = true;
  dm_default :
    (m_acl_default_user_obj m = UINT64_MAX /\ m_acl_default_group_obj m = UINT64_MAX /\ m_acl_default_other m = UINT64_MAX /\
     m_acl_default_mask m = UINT64_MAX) \/
    (m_acl_default_user_obj m <= 7 /\ m_acl_default_group_obj m <= 7 /\ m_acl_default_other m <= 7 /\
     (m_acl_default_mask m <= 7 \/ m_acl_default_mask m = UINT64_MAX) /\ has ff WITH_ACL = true);
  dm_acl_duser : Forall (fun a => dec_acl ff a /\ has ff WITH_ACL = true) (m_acl_default_user m);
  dm_acl_duser_sorted : StronglySorted (fun x y => acl_cmp x y = Lt) (m_acl_default_user m);
  dm_acl_dgroup : Forall (fun a => dec_acl ff a /\ has ff WITH_ACL = true) (m_acl_default_group m);
  dm_acl_dgroup_sorted : StronglySorted (fun x y => acl_cmp x y = Lt) (m_acl_default_group m);
  dm_selinux : forall s, m_selinux m = Some s -> s <> [] /\ ~ In 0 s /\ len s <= 4095 /\ has ff WITH_SELINUX = true;
  dm_fcaps : forall s, m_fcaps m = Some s -> len s <= 65536;
  dm_projid : forall q, m_projid m = Some q -> 0 < q <= UINT32_MAX
}.

Definition P (ar : bool) (f : N) (a : pacc) (p : list N) (off : N) : presult * N :=
  parse_loop (S (length p)) env ar f a p off.

Lemma P_cont ar f f' a a' t b x off :
  parse_obj env f a (obj t b ++ x) = (PCont a' (16 + len b), f') ->
  P ar f a (obj t b ++ x) off = P ar f' a' x (off + len (obj t b)).
Proof.
  intros H. unfold P at 1. cbn [parse_loop]. rewrite H, obj_rest, len_obj. apply parse_loop_fuel; [|lia].
  rewrite app_length. pose proof (len_obj t b) as L. unfold len in L. lia.
Qed.

(** Lists of records. *)
Definition lt_head {A} (lt : A -> A -> Prop) (prev : list A) (l : list A) : Prop :=
  match prev with [] => True | p :: _ => Forall (lt p) l end.
Lemma lt_head_cons {A} (lt : A -> A -> Prop) prev x l : StronglySorted lt (x :: l) -> lt_head lt (x :: prev) l.
Proof. intros H. apply StronglySorted_inv in H. apply H. Qed.

Lemma acl_ordered_ok a prev l : lt_head (fun x y => acl_cmp x y = Lt) prev (a :: l) -> acl_ordered a prev = true.
Proof.
  destruct prev as [|p prev]; [reflexivity|]. cbn. intros H. apply Forall_inv in H. rewrite acl_cmp_antisym, H. reflexivity.
Qed.
Lemma xattr_ordered_ok n v prev l : lt_head (fun x y => strcmp (fst x) (fst y) = Lt) prev ((n, v) :: l) -> xattr_ordered n prev = true.
Proof.
  destruct prev as [|[p w] prev]; [reflexivity|]. cbn. intros H. apply Forall_inv in H. cbn in H. rewrite strcmp_antisym, H. reflexivity.
Qed.

Lemma P_list {A} ar (t : N) (ser : A -> list N) (lt : A -> A -> Prop) (Q : A -> Prop) (acc : bool -> list A -> pacc)
  (H : forall h prev a x, Q a -> lt_head lt prev [a] ->
     parse_obj env ff (acc h prev) (obj t (ser a) ++ x) = (PCont (acc true (a :: prev)) (16 + len (ser a)), ff)) :
  forall l prev h x off, Forall Q l -> StronglySorted lt l -> lt_head lt prev l ->
  P ar ff (acc h prev) (concat (map (fun a => obj t (ser a)) l) ++ x) off =
  P ar ff (acc (h || nonempty l) (rev l ++ prev)) x (off + len (concat (map (fun a => obj t (ser a)) l))).
Proof.
  induction l as [|a l IH]; intros prev h x off FQ FS HL.
  - cbn [map concat app nonempty rev]. rewrite orb_false_r. change (@len N []) with 0. rewrite N.add_0_r. reflexivity.
  - cbn [map concat]. rewrite <- app_assoc. erewrite P_cont.
    2:{ apply H; [apply (Forall_inv FQ)|]. destruct prev; [exact I|]. cbn in *. constructor; [apply (Forall_inv HL)|constructor]. }
    rewrite IH.
    + cbn [nonempty rev]. rewrite orb_true_r. cbn [orb]. rewrite <- app_assoc. cbn [app]. f_equal. rewrite len_app. lia.
    + apply (Forall_inv_tail FQ).
    + apply StronglySorted_inv in FS. apply FS.
    + apply lt_head_cons, FS.
Qed.

(** xattrs don't set the ACL bit. *)
Lemma P_xattrs ar e u g : forall l prev x off,
  Forall (fun x => is_xattr_name (fst x) /\ len (snd x) <= 65536 /\ has ff WITH_XATTRS = true) l ->
  StronglySorted (fun x y => strcmp (fst x) (fst y) = Lt) l -> lt_head (fun x y => strcmp (fst x) (fst y) = Lt) prev l ->
  P ar ff (mkPacc (Some e) u g prev [] [] None None [] [] false None None None)
    (concat (map (fun a => obj F_XATTR (fst a ++ [0] ++ snd a)) l) ++ x) off =
  P ar ff (mkPacc (Some e) u g (rev l ++ prev) [] [] None None [] [] false None None None) x
    (off + len (concat (map (fun a => obj F_XATTR (fst a ++ [0] ++ snd a)) l))).
Proof.
  induction l as [|[n v] l IH]; intros prev x off FQ FS HL.
  - cbn [map concat app nonempty rev]. change (@len N []) with 0. rewrite N.add_0_r. reflexivity.
  - cbn [map concat fst snd]. rewrite <- app_assoc. destruct (Forall_inv FQ) as (A & B & C). cbn [fst snd] in *.
    erewrite P_cont.
    2:{ apply rec_xattr; [exact A|exact B|exact C|eapply xattr_ordered_ok; exact HL]. }
    rewrite IH.
    + cbn [rev]. rewrite <- app_assoc. cbn [app]. f_equal. rewrite (len_app (obj _ _)). lia.
    + apply (Forall_inv_tail FQ).
    + apply StronglySorted_inv in FS. apply FS.
    + apply lt_head_cons, FS.
Qed.

Lemma P_acl_user ar e u g xs l h x off : Forall (fun a => dec_acl ff a /\ has ff WITH_ACL = true) l -> StronglySorted (fun x y => acl_cmp x y = Lt) l ->
  P ar ff (mkPacc (Some e) u g xs [] [] None None [] [] h None None None) (concat (map (fun a => obj F_ACL_USER (acl_bytes a)) l) ++ x) off =
  P ar ff (mkPacc (Some e) u g xs (rev l) [] None None [] [] (h || nonempty l) None None None) x (off + len (concat (map (fun a => obj F_ACL_USER (acl_bytes a)) l))).
Proof.
  intros A B.
  assert (R : forall h prev a x, (dec_acl ff a /\ has ff WITH_ACL = true) -> lt_head (fun x y => acl_cmp x y = Lt) prev [a] ->
     parse_obj env ff (mkPacc (Some e) u g xs prev [] None None [] [] h None None None) (obj F_ACL_USER (acl_bytes a) ++ x) =
     (PCont (mkPacc (Some e) u g xs (a :: prev) [] None None [] [] true None None None) (16 + len (acl_bytes a)), ff)).
  { intros h' prev a y [D1 D2] L. apply rec_acl_user; [exact D1|exact D2|]. eapply acl_ordered_ok, L. }
  pose proof (P_list ar F_ACL_USER acl_bytes (fun x y => acl_cmp x y = Lt) (fun a => dec_acl ff a /\ has ff WITH_ACL = true)
    (fun h prev => mkPacc (Some e) u g xs prev [] None None [] [] h None None None) R l [] h x off A B I) as Z.
  cbv beta in Z. rewrite app_nil_r in Z. exact Z.
Qed.
Lemma P_acl_group ar e u g xs us l h x off : Forall (fun a => dec_acl ff a /\ has ff WITH_ACL = true) l -> StronglySorted (fun x y => acl_cmp x y = Lt) l ->
  P ar ff (mkPacc (Some e) u g xs us [] None None [] [] h None None None) (concat (map (fun a => obj F_ACL_GROUP (acl_bytes a)) l) ++ x) off =
  P ar ff (mkPacc (Some e) u g xs us (rev l) None None [] [] (h || nonempty l) None None None) x (off + len (concat (map (fun a => obj F_ACL_GROUP (acl_bytes a)) l))).
Proof.
  intros A B.
  assert (R : forall h prev a x, (dec_acl ff a /\ has ff WITH_ACL = true) -> lt_head (fun x y => acl_cmp x y = Lt) prev [a] ->
     parse_obj env ff (mkPacc (Some e) u g xs us prev None None [] [] h None None None) (obj F_ACL_GROUP (acl_bytes a) ++ x) =
     (PCont (mkPacc (Some e) u g xs us (a :: prev) None None [] [] true None None None) (16 + len (acl_bytes a)), ff)).
  { intros h' prev a y [D1 D2] L. apply rec_acl_group; [exact D1|exact D2|]. eapply acl_ordered_ok, L. }
  pose proof (P_list ar F_ACL_GROUP acl_bytes (fun x y => acl_cmp x y = Lt) (fun a => dec_acl ff a /\ has ff WITH_ACL = true)
    (fun h prev => mkPacc (Some e) u g xs us prev None None [] [] h None None None) R l [] h x off A B I) as Z.
  cbv beta in Z. rewrite app_nil_r in Z. exact Z.
Qed.
Lemma P_acl_duser ar e u g xs us gs go df l h x off : Forall (fun a => dec_acl ff a /\ has ff WITH_ACL = true) l -> StronglySorted (fun x y => acl_cmp x y = Lt) l ->
  P ar ff (mkPacc (Some e) u g xs us gs go df [] [] h None None None) (concat (map (fun a => obj F_ACL_DEFAULT_USER (acl_bytes a)) l) ++ x) off =
  P ar ff (mkPacc (Some e) u g xs us gs go df (rev l) [] (h || nonempty l) None None None) x (off + len (concat (map (fun a => obj F_ACL_DEFAULT_USER (acl_bytes a)) l))).
Proof.
  intros A B.
  assert (R : forall h prev a x, (dec_acl ff a /\ has ff WITH_ACL = true) -> lt_head (fun x y => acl_cmp x y = Lt) prev [a] ->
     parse_obj env ff (mkPacc (Some e) u g xs us gs go df prev [] h None None None) (obj F_ACL_DEFAULT_USER (acl_bytes a) ++ x) =
     (PCont (mkPacc (Some e) u g xs us gs go df (a :: prev) [] true None None None) (16 + len (acl_bytes a)), ff)).
  { intros h' prev a y [D1 D2] L. apply rec_acl_duser; [exact D1|exact D2|]. eapply acl_ordered_ok, L. }
  pose proof (P_list ar F_ACL_DEFAULT_USER acl_bytes (fun x y => acl_cmp x y = Lt) (fun a => dec_acl ff a /\ has ff WITH_ACL = true)
    (fun h prev => mkPacc (Some e) u g xs us gs go df prev [] h None None None) R l [] h x off A B I) as Z.
  cbv beta in Z. rewrite app_nil_r in Z. exact Z.
Qed.
Lemma P_acl_dgroup ar e u g xs us gs go df dus l h x off : Forall (fun a => dec_acl ff a /\ has ff WITH_ACL = true) l -> StronglySorted (fun x y => acl_cmp x y = Lt) l ->
  P ar ff (mkPacc (Some e) u g xs us gs go df dus [] h None None None) (concat (map (fun a => obj F_ACL_DEFAULT_GROUP (acl_bytes a)) l) ++ x) off =
  P ar ff (mkPacc (Some e) u g xs us gs go df dus (rev l) (h || nonempty l) None None None) x (off + len (concat (map (fun a => obj F_ACL_DEFAULT_GROUP (acl_bytes a)) l))).
Proof.
  intros A B.
  assert (R : forall h prev a x, (dec_acl ff a /\ has ff WITH_ACL = true) -> lt_head (fun x y => acl_cmp x y = Lt) prev [a] ->
     parse_obj env ff (mkPacc (Some e) u g xs us gs go df dus prev h None None None) (obj F_ACL_DEFAULT_GROUP (acl_bytes a) ++ x) =
     (PCont (mkPacc (Some e) u g xs us gs go df dus (a :: prev) true None None None) (16 + len (acl_bytes a)), ff)).
  { intros h' prev a y [D1 D2] L. apply rec_acl_dgroup; [exact D1|exact D2|]. eapply acl_ordered_ok, L. }
  pose proof (P_list ar F_ACL_DEFAULT_GROUP acl_bytes (fun x y => acl_cmp x y = Lt) (fun a => dec_acl ff a /\ has ff WITH_ACL = true)
    (fun h prev => mkPacc (Some e) u g xs us gs go df dus prev h None None None) R l [] h x off A B I) as Z.
  cbv beta in Z. rewrite app_nil_r in Z. exact Z.
Qed.

(** The decoder takes these feature flags. *)
Definition ff_ok (f0 : N) : Prop := validate_feature_flags env f0 ff = (true, ff) /\ N.ldiff ff FEATURE_FLAGS_MAX = 0 /\ ff < two64.

Definition entry_bytes (m : meta) : list N :=
  le64 ff ++ le64 (m_mode m) ++ le64 (m_flags m) ++ le64 (m_uid m) ++ le64 (m_gid m) ++ le64 (m_mtime m).
Definition pe_of (m : meta) : pentry := mkPentry ff (m_mode m) (m_flags m) (m_uid m) (m_gid m) (m_mtime m).
Lemma len_entry_bytes m : len (entry_bytes m) = 48.
Proof. unfold entry_bytes. rewrite !len_app, !len_le64. reflexivity. Qed.

Lemma rec_entry f0 m x : ff_ok f0 -> dec_meta m ->
  parse_obj env f0 pacc0 (obj F_ENTRY (entry_bytes m) ++ x) =
  (PCont (mkPacc (Some (pe_of m)) None None [] [] [] None None [] [] false None None None) (16 + len (entry_bytes m)), ff).
Proof.
  intros (V & W & B64) M. pose proof (len_entry_bytes m) as L.
  assert (Hb : 16 + len (entry_bytes m) < UINT64_MAX) by (rewrite L; reflexivity).
  enter_obj F_ENTRY Hb. unfold pacc0. cbn [pa_entry some]. rewrite if_eqb_true by (rewrite L; reflexivity).
  unfold validate_format_entry.
  change (fld 16) with (fld (16 + 0)). change (fld 24) with (fld (16 + 8)). change (fld 32) with (fld (16 + 16)).
  change (fld 40) with (fld (16 + 24)). change (fld 48) with (fld (16 + 32)). change (fld 56) with (fld (16 + 40)).
  rewrite !(obj_fld F_ENTRY) by (rewrite L; lia).
  replace (fld 0 (entry_bytes m)) with ff by (symmetry; apply fld_0_le64, B64).
  replace (fld 8 (entry_bytes m)) with (m_mode m) by (unfold entry_bytes; rewrite !fld_next by lia; symmetry; apply fld_0_le64, M).
  replace (fld 16 (entry_bytes m)) with (m_flags m) by (unfold entry_bytes; rewrite !fld_next by lia; symmetry; apply fld_0_le64, M).
  replace (fld 24 (entry_bytes m)) with (m_uid m) by (unfold entry_bytes; rewrite !fld_next by lia; symmetry; apply fld_0_le64, M).
  replace (fld 32 (entry_bytes m)) with (m_gid m) by (unfold entry_bytes; rewrite !fld_next by lia; symmetry; apply fld_0_le64, M).
  replace (fld 40 (entry_bytes m)) with (m_mtime m).
  2:{ unfold entry_bytes. rewrite !fld_next by lia. change (40 - 8 - 8 - 8 - 8 - 8) with 0. rewrite <- (app_nil_r (le64 (m_mtime m))).
      symmetry. apply fld_0_le64, M. }
  cbv zeta. cbn [pe_ff pe_mode pe_flags pe_uid pe_gid pe_mtime]. rewrite V. cbn [negb].
  rewrite (dm_mode m M), (dm_flags m M), (dm_uid m M), (dm_gid m M), (dm_mtime m M). cbn [negb pe_ff]. rewrite W. reflexivity.
Qed.

Definition default_of (m : meta) : option (N * N * N * N) :=
  if m_acl_default_user_obj m =? UINT64_MAX then None
  else Some (m_acl_default_user_obj m, m_acl_default_group_obj m, m_acl_default_other m, m_acl_default_mask m).
Definition group_obj_of (m : meta) : option N := if m_acl_group_obj m =? UINT64_MAX then None else Some (m_acl_group_obj m).
Definition have_acl (m : meta) : bool :=
  nonempty (m_acl_user m) || nonempty (m_acl_group m) || some (group_obj_of m) || some (default_of m) ||
  nonempty (m_acl_default_user m) || nonempty (m_acl_default_group m).
Definition acc_of (m : meta) : pacc :=
  mkPacc (Some (pe_of m)) (m_user m) (m_group m) (rev (m_xattrs m)) (rev (m_acl_user m)) (rev (m_acl_group m)) (group_obj_of m) (default_of m)
    (rev (m_acl_default_user m)) (rev (m_acl_default_group m)) (have_acl m) (m_selinux m) (m_fcaps m) (m_projid m).

Lemma ser_acl_eq ev t l : ev_ff ev = ff -> Forall (fun a => dec_acl ff a /\ has ff WITH_ACL = true) l ->
  concat (map (ser_acl ev t) l) = concat (map (fun a => obj t (acl_bytes a)) l).
Proof.
  intros E F. f_equal. apply map_ext_in. intros a Ha. rewrite Forall_forall in F. destruct (F a Ha) as ((_ & V & _) & _).
  unfold ser_acl. rewrite E. unfold acl_bytes. destruct (has ff UIDS) eqn:U; [reflexivity|].
  assert (ae_id a = 0) as ->; [|reflexivity].
  unfold validate_uid_gid in V. revert V. unfold has, UIDS in *.
  destruct (N.land ff (N.lor WITH_16BIT_UIDS WITH_32BIT_UIDS) =? 0) eqn:Z; [|discriminate]. apply N.eqb_eq in Z.
  assert (Z1 : N.land ff WITH_16BIT_UIDS = 0).
  { apply N.bits_inj. intros k. assert (Q := f_equal (fun n => N.testbit n k) Z). cbv beta in Q. rewrite N.land_spec, N.lor_spec, N.bits_0 in Q.
    rewrite N.land_spec, N.bits_0. destruct (N.testbit ff k), (N.testbit WITH_16BIT_UIDS k); auto; discriminate. }
  assert (Z2 : N.land ff WITH_32BIT_UIDS = 0).
  { apply N.bits_inj. intros k. assert (Q := f_equal (fun n => N.testbit n k) Z). cbv beta in Q. rewrite N.land_spec, N.lor_spec, N.bits_0 in Q.
    rewrite N.land_spec, N.bits_0. destruct (N.testbit ff k), (N.testbit WITH_16BIT_UIDS k), (N.testbit WITH_32BIT_UIDS k); auto; discriminate. }
  rewrite Z1, Z2. cbn [negb N.eqb]. change (0 =? 0) with true. cbn [negb]. intros V. apply N.eqb_eq, V.
Qed.

Lemma P_meta ev ar f0 m x : ev_ff ev = ff -> ff_ok f0 -> dec_meta m ->
  P ar f0 pacc0 (ser_meta ev m ++ x) 0 = P ar ff (acc_of m) x (len (ser_meta ev m)).
Proof.
  intros E Hff M. unfold ser_meta. rewrite E. fold (entry_bytes m).
  rewrite !(ser_acl_eq ev _ _ E) by apply M.
  rewrite <- !app_assoc. erewrite P_cont by (apply rec_entry; assumption). 
  rewrite !len_app. set (l0 := len (obj F_ENTRY (entry_bytes m))).
  (* user *)
  assert (U : forall y off, P ar ff (mkPacc (Some (pe_of m)) None None [] [] [] None None [] [] false None None None)
     (opt_obj (m_user m) (fun n => obj F_USER (n ++ [0])) ++ y) off =
     P ar ff (mkPacc (Some (pe_of m)) (m_user m) None [] [] [] None None [] [] false None None None) y (off + len (opt_obj (m_user m) (fun n => obj F_USER (n ++ [0]))))).
  { intros y off. pose proof (dm_user m M) as Q. destruct (m_user m) as [n|]; cbn [opt_obj].
    - destruct (Q n eq_refl). erewrite P_cont by (apply rec_user; assumption). reflexivity.
    - cbn [app]. change (@len N []) with 0. rewrite N.add_0_r. reflexivity. }
  rewrite U. clear U.
  assert (U : forall y off, P ar ff (mkPacc (Some (pe_of m)) (m_user m) None [] [] [] None None [] [] false None None None)
     (opt_obj (m_group m) (fun n => obj F_GROUP (n ++ [0])) ++ y) off =
     P ar ff (mkPacc (Some (pe_of m)) (m_user m) (m_group m) [] [] [] None None [] [] false None None None) y (off + len (opt_obj (m_group m) (fun n => obj F_GROUP (n ++ [0]))))).
  { intros y off. pose proof (dm_group m M) as Q. destruct (m_group m) as [n|]; cbn [opt_obj].
    - destruct (Q n eq_refl). erewrite P_cont by (apply rec_group; assumption). reflexivity.
    - cbn [app]. change (@len N []) with 0. rewrite N.add_0_r. reflexivity. }
  rewrite U. clear U.
  rewrite P_xattrs by (apply M || exact I). rewrite app_nil_r.
  rewrite P_acl_user by apply M. rewrite P_acl_group by apply M. cbn [orb].
  assert (U : forall e u g xs us gs h y off, P ar ff (mkPacc e u g xs us gs None None [] [] h None None None)
     ((if negb (m_acl_group_obj m =? UINT64_MAX) then obj F_ACL_GROUP_OBJ (le64 (m_acl_group_obj m)) else []) ++ y) off =
     P ar ff (mkPacc e u g xs us gs (group_obj_of m) None [] [] (h || some (group_obj_of m)) None None None) y
       (off + len (if negb (m_acl_group_obj m =? UINT64_MAX) then obj F_ACL_GROUP_OBJ (le64 (m_acl_group_obj m)) else []))
     \/ e = None).
  { intros e u g xs us gs h y off. destruct e as [e|]; [left|auto]. unfold group_obj_of. destruct (N.eqb_spec (m_acl_group_obj m) UINT64_MAX) as [Z | Z]; cbn [negb some].
    - cbn [app]. change (@len N []) with 0. rewrite N.add_0_r, orb_false_r. reflexivity.
    - destruct (dm_group_obj m M) as [? | [? ?]]; [congruence|]. erewrite P_cont by (apply rec_acl_group_obj; assumption). rewrite orb_true_r. reflexivity. }
  edestruct U as [U' | U']; [rewrite U'|discriminate]. clear U U'.
  assert (U : forall e u g xs us gs go h y off, P ar ff (mkPacc (Some e) u g xs us gs go None [] [] h None None None)
     ((if negb (m_acl_default_user_obj m =? UINT64_MAX) || negb (m_acl_default_group_obj m =? UINT64_MAX) ||
      negb (m_acl_default_other m =? UINT64_MAX) || negb (m_acl_default_mask m =? UINT64_MAX) then
      obj F_ACL_DEFAULT (le64 (m_acl_default_user_obj m) ++ le64 (m_acl_default_group_obj m) ++ le64 (m_acl_default_other m) ++ le64 (m_acl_default_mask m)) else []) ++ y) off =
     P ar ff (mkPacc (Some e) u g xs us gs go (default_of m) [] [] (h || some (default_of m)) None None None) y
       (off + len (if negb (m_acl_default_user_obj m =? UINT64_MAX) || negb (m_acl_default_group_obj m =? UINT64_MAX) ||
      negb (m_acl_default_other m =? UINT64_MAX) || negb (m_acl_default_mask m =? UINT64_MAX) then
      obj F_ACL_DEFAULT (le64 (m_acl_default_user_obj m) ++ le64 (m_acl_default_group_obj m) ++ le64 (m_acl_default_other m) ++ le64 (m_acl_default_mask m)) else []))).
  { intros e u g xs us gs go h y off. unfold default_of. destruct (dm_default m M) as [(Z1 & Z2 & Z3 & Z4) | (Z1 & Z2 & Z3 & Z4 & Z5)].
    - rewrite Z1, Z2, Z3, Z4, N.eqb_refl. cbn [negb orb some app]. change (@len N []) with 0. rewrite N.add_0_r, orb_false_r. reflexivity.
    - assert (Q : (m_acl_default_user_obj m =? UINT64_MAX) = false) by (apply N.eqb_neq; unfold UINT64_MAX; lia).
      rewrite Q. cbn [negb orb some]. erewrite P_cont by (apply rec_acl_default; assumption). rewrite orb_true_r. reflexivity. }
  rewrite U. clear U.
  rewrite P_acl_duser by apply M. rewrite P_acl_dgroup by apply M.
  assert (U : forall e u g xs us gs go df du dg h y off, P ar ff (mkPacc (Some e) u g xs us gs go df du dg h None None None)
     (opt_obj (m_selinux m) (fun n => obj F_SELINUX (n ++ [0])) ++ y) off =
     P ar ff (mkPacc (Some e) u g xs us gs go df du dg h (m_selinux m) None None) y (off + len (opt_obj (m_selinux m) (fun n => obj F_SELINUX (n ++ [0]))))).
  { intros. pose proof (dm_selinux m M) as Q. destruct (m_selinux m) as [n|]; cbn [opt_obj].
    - destruct (Q n eq_refl) as (? & ? & ? & ?). erewrite P_cont by (apply rec_selinux; assumption). reflexivity.
    - cbn [app]. change (@len N []) with 0. rewrite N.add_0_r. reflexivity. }
  rewrite U. clear U.
  assert (U : forall e u g xs us gs go df du dg h se y off, P ar ff (mkPacc (Some e) u g xs us gs go df du dg h se None None)
     (opt_obj (m_fcaps m) (fun n => obj F_FCAPS n) ++ y) off =
     P ar ff (mkPacc (Some e) u g xs us gs go df du dg h se (m_fcaps m) None) y (off + len (opt_obj (m_fcaps m) (fun n => obj F_FCAPS n)))).
  { intros. pose proof (dm_fcaps m M) as Q. destruct (m_fcaps m) as [n|]; cbn [opt_obj].
    - specialize (Q n eq_refl). erewrite P_cont by (apply rec_fcaps; assumption). reflexivity.
    - cbn [app]. change (@len N []) with 0. rewrite N.add_0_r. reflexivity. }
  rewrite U. clear U.
  assert (U : forall e u g xs us gs go df du dg h se fc y off, P ar ff (mkPacc (Some e) u g xs us gs go df du dg h se fc None)
     (opt_obj (m_projid m) (fun p => obj F_QUOTA_PROJID (le64 p)) ++ y) off =
     P ar ff (mkPacc (Some e) u g xs us gs go df du dg h se fc (m_projid m)) y (off + len (opt_obj (m_projid m) (fun p => obj F_QUOTA_PROJID (le64 p))))).
  { intros. pose proof (dm_projid m M) as Q. destruct (m_projid m) as [n|]; cbn [opt_obj].
    - specialize (Q n eq_refl). erewrite P_cont by (apply rec_projid; assumption). reflexivity.
    - cbn [app]. change (@len N []) with 0. rewrite N.add_0_r. reflexivity. }
  rewrite U. clear U.
  unfold acc_of, have_acl. f_equal. lia.
Qed.
End Entry.
