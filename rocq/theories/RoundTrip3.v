(** Decoding what the encoder writes, part 3: the end of an entry, and what an archive of a tree looks like. *)
From Coq Require Import Sorted Permutation.
From Verif Require Import Base FeatureFlags ArchiveBase Bst Decoder DecoderSpec DecoderProofs DecoderProofs2 DecoderProofs5 Encoder EncoderProofs RoundTrip1 RoundTrip2.
Local Open Scope N_scope.
Local Arguments fld : simpl never.
Local Arguments body : simpl never.

(** ** Archives of trees. [ls] says for each entry of the directory how far in front of the GOODBYE object it starts, and how
    long it is. Streaming doesn't depend on that; seeking does. *)
Definition ser_gitem (i : gitem) : list N := le64 (gi_off i) ++ le64 (gi_size i) ++ le64 (gi_hash i).
Definition searchable (tab ls : list gitem) : Prop :=
  Permutation tab ls /\
  forall h, exists ms, Permutation ms (filter (fun x => gi_hash x =? h) ls) /\
    forall idx, goodbye_search gi_hash tab h idx = Ok (nth_error ms (N.to_nat idx)).
Definition goodbye_of (o : N) (ls : list gitem) (gb : list N) : Prop :=
  exists tab, searchable tab ls /\
    gb = obj F_GOODBYE (concat (map ser_gitem tab) ++ le64 o ++ le64 (40 + 24 * len ls) ++ le64 F_GOODBYE_TAIL_MARKER).

Lemma len_gitems tab : len (concat (map ser_gitem tab)) = 24 * len tab.
Proof. induction tab as [|i l IH]; [reflexivity|]. cbn [map concat]. rewrite len_app, IH, len_cons. unfold ser_gitem. rewrite !len_app, !len_le64. lia. Qed.
Lemma goodbye_items_of o ls gb : goodbye_of o ls gb ->
  exists items, len items = 24 * len ls /\ gb = obj F_GOODBYE (items ++ le64 o ++ le64 (40 + 24 * len ls) ++ le64 F_GOODBYE_TAIL_MARKER).
Proof.
  intros (tab & [P _] & ->). exists (concat (map ser_gitem tab)). split; [|reflexivity]. rewrite len_gitems. unfold len. rewrite (Permutation_length P). reflexivity.
Qed.

Inductive arch (ev : eenv) : tree -> list N -> Prop :=
| arch_reg m data : arch ev (TReg m data) (ser_meta ev m ++ le64 (HDR + len data) ++ le64 F_PAYLOAD ++ data)
| arch_lnk m t : arch ev (TLnk m t) (ser_meta ev m ++ obj F_SYMLINK (t ++ [0]))
| arch_dev m x y : arch ev (TDev m x y) (ser_meta ev m ++ obj F_DEVICE (le64 x ++ le64 y))
| arch_other m : arch ev (TOther m) (ser_meta ev m)
| arch_dir m ents b ls gb : arch_ents ev ents b ls -> goodbye_of (len (ser_meta ev m ++ b)) ls gb ->
    arch ev (TDir m ents) (ser_meta ev m ++ b ++ gb)
with arch_ents (ev : eenv) : list (list N * tree) -> list N -> list gitem -> Prop :=
| arch_nil : arch_ents ev [] [] []
| arch_cons n t bt l bl ls : arch ev t bt -> arch_ents ev l bl ls ->
    arch_ents ev ((n, t) :: l) (obj F_FILENAME (n ++ [0]) ++ bt ++ bl)
      (mkGitem (len (obj F_FILENAME (n ++ [0]) ++ bt ++ bl)) (len (obj F_FILENAME (n ++ [0]) ++ bt)) (ev_hash ev n) :: ls).
Scheme arch_mind := Induction for arch Sort Prop with arch_ents_mind := Induction for arch_ents Sort Prop.
Combined Scheme arch_mutind from arch_mind, arch_ents_mind.

Section End_.
Variables (env : denv) (ff : N).

(** All that the decoder demands of one file. *)
Record dec_file (m : meta) : Prop := mkDecFile {
  df_meta : dec_meta ff m;
  df_valid : valid_meta m;
  df_names : has ff WITH_USER_NAMES = true -> has ff UIDS = false -> m_user m <> None /\ m_group m <> None
}.

Lemma some_iff {A} (o : option A) : some o = true <-> o <> None.
Proof. destruct o; cbn; split; congruence. Qed.

Lemma nonempty_rev {A} (l : list A) : nonempty (rev l) = nonempty l.
Proof. destruct l as [|x l]; [reflexivity|]. cbn. destruct (rev l); reflexivity. Qed.
Lemma nonempty_iff {A} (l : list A) : nonempty l = true <-> l <> [].
Proof. destruct l; cbn; split; congruence. Qed.

Definition fits (m : meta) (w : pend) : Prop :=
  match w with
  | PPayload _ => S_ISREG (m_mode m) = true
  | PFilename | PGoodbye => S_ISDIR (m_mode m) = true \/ (S_ISFIFO (m_mode m) || S_ISSOCK (m_mode m))%bool = true
  | PSymlink _ => S_ISLNK (m_mode m) = true
  | PDevice _ _ => (S_ISBLK (m_mode m) || S_ISCHR (m_mode m))%bool = true
  end.

Lemma is_type_inj m a b : is_type m a = true -> is_type m b = (a =? b).
Proof. unfold is_type. intros H. apply N.eqb_eq in H. rewrite H. reflexivity. Qed.

Lemma checks_ok ar m w : dec_file m -> fits m w -> (ar = true -> S_ISDIR (m_mode m) = true) ->
  parse_checks ar ff (acc_of ff m) (pe_of ff m) w = true.
Proof.
  intros [D V Nm] F Har. unfold parse_checks, acc_of.
  cbn [pe_mode pe_of pa_user pa_group pa_xattrs pa_acl_user pa_acl_group pa_acl_group_obj pa_acl_default pa_acl_default_user pa_acl_default_group
       pa_have_acl pa_selinux pa_fcaps pa_projid pe_flags].
  rewrite !nonempty_rev. cbv zeta.
  set (mode := m_mode m) in *.
  rewrite if_f.
  2:{ destruct (m_user m) eqn:U; [|reflexivity]. destruct (dm_user _ _ D _ U) as [_ ->]. reflexivity. }
  rewrite if_f.
  2:{ destruct (m_group m) eqn:U; [|reflexivity]. destruct (dm_group _ _ D _ U) as [_ ->]. reflexivity. }
  rewrite if_f.
  2:{ destruct (has ff WITH_USER_NAMES) eqn:H1; [|reflexivity]. change (N.lor WITH_16BIT_UIDS WITH_32BIT_UIDS) with UIDS.
      destruct (has ff UIDS) eqn:H2; [reflexivity|]. destruct (Nm eq_refl eq_refl) as [A B]. apply some_iff in A, B. rewrite A, B. reflexivity. }
  (* the type of the file fits the last object *)
  assert (T : (S_ISREG mode && negb match w with PPayload _ => true | _ => false end)%bool = false /\
     (S_ISDIR mode && negb match w with PFilename | PGoodbye => true | _ => false end)%bool = false /\
     (S_ISLNK mode && negb match w with PSymlink _ => true | _ => false end)%bool = false /\
     ((S_ISBLK mode || S_ISCHR mode) && negb match w with PDevice _ _ => true | _ => false end)%bool = false).
  { unfold S_ISREG, S_ISDIR, S_ISLNK, S_ISBLK, S_ISCHR, S_ISFIFO, S_ISSOCK, fits in *.
    destruct w; cbn [negb]; rewrite ?andb_false_r;
      try (rewrite !(is_type_inj _ _ _ F); repeat split; reflexivity).
    - apply orb_true_iff in F. destruct F as [F | F]; rewrite !(is_type_inj _ _ _ F); repeat split; reflexivity.
    - destruct F as [F | F]; [rewrite !(is_type_inj _ _ _ F); repeat split; reflexivity|].
      apply orb_true_iff in F. destruct F as [F | F]; rewrite !(is_type_inj _ _ _ F); repeat split; reflexivity.
    - destruct F as [F | F]; [rewrite !(is_type_inj _ _ _ F); repeat split; reflexivity|].
      apply orb_true_iff in F. destruct F as [F | F]; rewrite !(is_type_inj _ _ _ F); repeat split; reflexivity. }
  destruct T as (T1 & T2 & T3 & T4). rewrite !T1, T2, T3, T4. clear T1 T2 T3 T4.
  rewrite if_f.
  2:{ destruct (S_ISREG mode) eqn:R; [reflexivity|]. rewrite (vm_fcaps m V R). reflexivity. }
  rewrite if_f.
  2:{ destruct (m_projid m) eqn:Q; [|apply andb_false_r]. destruct (vm_projid m V _ Q) as [_ R]. unfold mode. rewrite R. reflexivity. }
  rewrite if_f.
  2:{ destruct (N.eqb_spec (m_flags m) 0) as [Q | Q]; [reflexivity|]. cbn [negb andb]. pose proof (vm_flags m V Q) as R. unfold mode.
      destruct (S_ISREG (m_mode m)), (S_ISDIR (m_mode m)); auto. }
  rewrite if_f.
  2:{ destruct ar; [|reflexivity]. rewrite Har by reflexivity. reflexivity. }
  assert (DF : S_ISDIR mode = false -> m_acl_default_user m = [] /\ m_acl_default_group m = [] /\ default_of m = None).
  { intros R. destruct (vm_acl_default_dir m V R) as (A & B & C & _). unfold default_of. rewrite C, N.eqb_refl. auto. }
  rewrite if_f.
  2:{ destruct (S_ISLNK mode) eqn:R; [|reflexivity]. destruct (vm_symlink m V R) as (_ & A & B & C & E).
      assert (Z : S_ISDIR mode = false) by (unfold S_ISDIR; unfold S_ISLNK in R; rewrite (is_type_inj _ _ _ R); reflexivity).
      destruct (DF Z) as (F1 & F2 & F3). unfold have_acl, group_obj_of. rewrite A, B, C, E, F1, F2, F3. reflexivity. }
  rewrite if_f.
  2:{ unfold group_obj_of. destruct (nonempty (m_acl_user m) || nonempty (m_acl_group m))%bool eqn:R; [|reflexivity].
      destruct (N.eqb_spec (m_acl_group_obj m) UINT64_MAX) as [Z | Z]; [|reflexivity].
      exfalso. apply (vm_acl_masked m V); [|exact Z]. apply orb_true_iff in R. rewrite !nonempty_iff in R. exact R. }
  rewrite if_f.
  2:{ destruct (nonempty (m_acl_default_user m) || nonempty (m_acl_default_group m))%bool eqn:R; [|reflexivity]. cbn [andb].
      assert (Z : m_acl_default_mask m <> UINT64_MAX).
      { apply (vm_acl_default_masked m V). apply orb_true_iff in R. rewrite !nonempty_iff in R. exact R. }
      unfold default_of. destruct (dm_default _ _ D) as [(_ & _ & _ & X) | (X & _)]; [congruence|].
      destruct (N.eqb_spec (m_acl_default_user_obj m) UINT64_MAX) as [Y | Y]; [rewrite Y in X; exfalso; apply X; reflexivity|].
      apply N.eqb_neq, Z. }
  destruct (S_ISDIR mode) eqn:R; [rewrite andb_false_r; reflexivity|].
  destruct (DF eq_refl) as (A & B & C). rewrite A, B, C. reflexivity.
Qed.

Lemma dentry_ok m w : dec_meta ff m ->
  parse_dentry (acc_of ff m) (pe_of ff m) w =
  mkDentry m (match w with PSymlink s => Some s | _ => None end) (match w with PDevice x y => Some (x, y) | _ => None end)
    (match w with PPayload s => Some s | _ => None end).
Proof.
  intros D. unfold parse_dentry, acc_of.
  cbn [pe_mode pe_of pa_user pa_group pa_xattrs pa_acl_user pa_acl_group pa_acl_group_obj pa_acl_default pa_acl_default_user pa_acl_default_group
       pa_have_acl pa_selinux pa_fcaps pa_projid pe_flags pe_uid pe_gid pe_mtime].
  rewrite !rev_involutive.
  assert (G : opt_or (group_obj_of m) UINT64_MAX = m_acl_group_obj m).
  { unfold group_obj_of. destruct (N.eqb_spec (m_acl_group_obj m) UINT64_MAX) as [E | E]; cbn; congruence. }
  assert (F : opt_or (default_of m) (UINT64_MAX, UINT64_MAX, UINT64_MAX, UINT64_MAX) =
    (m_acl_default_user_obj m, m_acl_default_group_obj m, m_acl_default_other m, m_acl_default_mask m)).
  { unfold default_of. destruct (N.eqb_spec (m_acl_default_user_obj m) UINT64_MAX) as [E | E]; [|reflexivity].
    destruct (dm_default _ _ D) as [(_ & X2 & X3 & X4) | (X & _)]; [cbn; congruence|].
    rewrite E in X. exfalso. apply X. reflexivity. }
  rewrite F, G. destruct m; reflexivity.
Qed.

Lemma P_done ar m x off c w : dec_file m -> fits m w -> (ar = true -> S_ISDIR (m_mode m) = true) ->
  parse_obj env ff (acc_of ff m) x = (PDone (acc_of ff m) c w, ff) ->
  P env ar ff (acc_of ff m) x off =
  (ROk (mkDentry m (match w with PSymlink s => Some s | _ => None end) (match w with PDevice x y => Some (x, y) | _ => None end)
    (match w with PPayload s => Some s | _ => None end)) (off + c), ff).
Proof.
  intros D F A H. unfold P. cbn [parse_loop]. rewrite H. cbn [pa_entry acc_of]. rewrite checks_ok by assumption.
  rewrite dentry_ok by apply D. reflexivity.
Qed.

(** ** The last object *)
Lemma end_payload m s x : dec_file m -> S_ISREG (m_mode m) = true -> HDR + s < UINT64_MAX ->
  parse_obj env ff (acc_of ff m) (le64 (HDR + s) ++ le64 F_PAYLOAD ++ x) = (PDone (acc_of ff m) HDR (PPayload s), ff).
Proof.
  intros D R B. unfold parse_obj. cbv zeta. 
  assert (L : HDR <= len (le64 (HDR + s) ++ le64 F_PAYLOAD ++ x)) by (rewrite !len_app, !len_le64; unfold HDR; lia).
  rewrite if_ltb_false by exact L.
  rewrite fld_0_le64 by (unfold two64, UINT64_MAX in *; lia). rewrite fld_next by lia. rewrite fld_0_le64 by reflexivity.
  rewrite (if_ltb_false (HDR + s)) by lia. rewrite (if_eqb_false (HDR + s) UINT64_MAX) by lia.
  codes F_PAYLOAD. cbn [pa_entry acc_of pe_mode pe_of]. rewrite R. cbn [negb].
  replace (HDR + s - HDR) with s by lia. reflexivity.
Qed.

Lemma end_symlink m t x : S_ISLNK (m_mode m) = true -> has ff WITH_SYMLINKS = true ->
  t <> [] -> ~ In 0 t -> len t <= 4095 ->
  parse_obj env ff (acc_of ff m) (obj F_SYMLINK (t ++ [0]) ++ x) = (PDone (acc_of ff m) (len (obj F_SYMLINK (t ++ [0]))) (PSymlink t), ff).
Proof.
  intros R Hf S1 S2 S3. assert (Ls := len_pos _ S1). assert (L : len (t ++ [0]) = len t + 1) by (rewrite len_app; reflexivity).
  assert (Hb : 16 + len (t ++ [0]) < UINT64_MAX) by (unfold UINT64_MAX; lia).
  rewrite len_obj. enter_obj F_SYMLINK Hb. cbn [pa_entry acc_of pe_mode pe_of]. rewrite R. cbn [negb].
  rewrite if_ltb_false by (unfold SYMLINK_SIZE_MAX, HDR; lia).
  unfold validate_format_symlink. rewrite if_ltb_false by (unfold HDR; lia). rewrite (if_b (has ff WITH_SYMLINKS)) by exact Hf.
  change HDR with 16. rewrite (obj_body F_SYMLINK).
  assert (V : validate_symlink_target (t ++ [0]) = true).
  { unfold validate_symlink_target. rewrite if_ltb_false by lia. rewrite last_last, removelast_last, no_nul_ok by exact S2. cbn [negb N.eqb].
    change (0 =? 0) with true. cbn [negb]. apply negb_true_iff, N.ltb_ge. lia. }
  rewrite V, removelast_last. reflexivity.
Qed.

Lemma end_device m a b x : (S_ISBLK (m_mode m) || S_ISCHR (m_mode m))%bool = true -> has ff WITH_DEVICE_NODES = true ->
  a < 4096 -> b < 1048576 ->
  parse_obj env ff (acc_of ff m) (obj F_DEVICE (le64 a ++ le64 b) ++ x) = (PDone (acc_of ff m) (len (obj F_DEVICE (le64 a ++ le64 b))) (PDevice a b), ff).
Proof.
  intros R Hf A B. assert (L : len (le64 a ++ le64 b) = 16) by (rewrite len_app, !len_le64; reflexivity).
  assert (Hb : 16 + len (le64 a ++ le64 b) < UINT64_MAX) by (rewrite L; reflexivity).
  rewrite len_obj. enter_obj F_DEVICE Hb. cbn [pa_entry acc_of pe_mode pe_of]. 
  rewrite if_f by (destruct (S_ISBLK (m_mode m)), (S_ISCHR (m_mode m)); auto; discriminate).
  rewrite if_eqb_true by (rewrite L; reflexivity).
  unfold validate_format_device. rewrite if_eqb_true by (rewrite L; reflexivity). rewrite (if_b (has ff WITH_DEVICE_NODES)) by exact Hf.
  change (fld 16) with (fld (16 + 0)). change (fld 24) with (fld (16 + 8)). rewrite !(obj_fld F_DEVICE) by lia.
  assert (E0 : fld 0 (le64 a ++ le64 b) = a) by (apply fld_0_le64; unfold two64; lia).
  assert (E8 : fld 8 (le64 a ++ le64 b) = b) by (rewrite fld_next by lia; change (8 - 8) with 0; rewrite <- (app_nil_r (le64 b)); apply fld_0_le64; unfold two64; lia).
  rewrite E0, E8. unfold validate_major, validate_minor. apply N.ltb_lt in A, B. rewrite A, B. reflexivity.
Qed.

Lemma filename_ok n : is_component n -> validate_filename (n ++ [0]) = true.
Proof.
  intros (A & B & C & D & E). assert (Ls := len_pos _ A). unfold validate_filename.
  rewrite if_ltb_false by (rewrite len_app; change (len [0]) with 1; lia). rewrite last_last, removelast_last. change (0 =? 0) with true. cbn [negb].
  rewrite if_b.
  - apply negb_true_iff. unfold dot_or_dot_dot. apply orb_false_iff. split; apply beq_neq; assumption.
  - apply forallb_forall. intros b Hb. apply negb_true_iff, orb_false_iff. split; apply N.eqb_neq; intros ->; contradiction.
Qed.
Lemma vff_ok n x : is_component n -> 16 + len (n ++ [0]) < UINT64_MAX ->
  validate_format_filename (16 + len (n ++ [0])) (obj F_FILENAME (n ++ [0]) ++ x) = Some n.
Proof.
  intros H Hb. unfold validate_format_filename. rewrite if_ltb_false by (rewrite len_app; change (len [0]) with 1; unfold HDR; lia).
  change HDR with 16. rewrite (obj_body F_FILENAME), filename_ok by exact H. rewrite removelast_last. reflexivity.
Qed.

Lemma end_filename m n x : is_component n -> 16 + len (n ++ [0]) < UINT64_MAX ->
  parse_obj env ff (acc_of ff m) (obj F_FILENAME (n ++ [0]) ++ x) = (PDone (acc_of ff m) 0 PFilename, ff).
Proof.
  intros H Hb. enter_obj F_FILENAME Hb. cbn [pa_entry acc_of].
  rewrite if_ltb_false by (rewrite len_app; change (len [0]) with 1; unfold HDR; lia). rewrite vff_ok by assumption. reflexivity.
Qed.
Lemma fn_name n x : is_component n -> 16 + len (n ++ [0]) < UINT64_MAX ->
  parse_filename (obj F_FILENAME (n ++ [0]) ++ x) = FName n (16 + len (n ++ [0])).
Proof.
  intros H Hb. unfold parse_filename. cbv zeta. rewrite (obj_len F_FILENAME), (obj_type F_FILENAME) by reflexivity. rewrite (obj_size F_FILENAME) by exact Hb.
  rewrite (if_ltb_false (16 + _ + _) HDR) by (unfold HDR; lia). rewrite (if_ltb_false (16 + _) HDR) by (unfold HDR; lia).
  rewrite (if_eqb_false (16 + _) UINT64_MAX) by lia. codes F_FILENAME.
  rewrite if_ltb_false by (rewrite len_app; change (len [0]) with 1; unfold HDR; lia). rewrite if_leb_true by lia.
  rewrite vff_ok by assumption. reflexivity.
Qed.

Lemma vfg_ok items o k x : len items = 24 * k -> 40 + 24 * k <= o -> o < UINT64_MAX ->
  let b := items ++ le64 o ++ le64 (40 + 24 * k) ++ le64 F_GOODBYE_TAIL_MARKER in
  16 + len b = 40 + 24 * k /\ validate_format_goodbye (16 + len b) (obj F_GOODBYE b ++ x) = Some o.
Proof.
  intros Li Lo Lm b. assert (Lb : len b = 24 + 24 * k) by (unfold b; rewrite !len_app, !len_le64, Li; lia). split; [lia|].
  unfold validate_format_goodbye. rewrite if_ltb_false by (unfold HDR, GOODBYE_TAIL; lia).
  rewrite if_eqb_true.
  2:{ unfold HDR, GOODBYE_TAIL, GOODBYE_ITEM. rewrite Lb. replace (16 + (24 + 24 * k) - 16 - 24) with (k * 24) by lia. apply N.mod_mul. discriminate. }
  assert (T : forall j, j + 8 <= 24 -> fld (16 + len b - GOODBYE_TAIL + j) (obj F_GOODBYE b ++ x) = fld j (le64 o ++ le64 (40 + 24 * k) ++ le64 F_GOODBYE_TAIL_MARKER)).
  { intros j Hj. unfold GOODBYE_TAIL. replace (16 + len b - 24 + j) with (16 + (24 * k + j)) by lia. rewrite (obj_fld F_GOODBYE) by lia.
    rewrite fld_drop. unfold b. rewrite dropN_app_exact by exact Li. reflexivity. }
  rewrite !T by lia. replace (16 + len b - GOODBYE_TAIL) with (16 + len b - GOODBYE_TAIL + 0) by lia. rewrite !T by lia.
  rewrite !fld_next by lia. change (16 - 8 - 8) with 0. change (8 - 8) with 0.
  assert (M : fld 0 (le64 F_GOODBYE_TAIL_MARKER) = F_GOODBYE_TAIL_MARKER) by reflexivity.
  rewrite M. rewrite !fld_0_le64 by (unfold two64, UINT64_MAX in *; lia).
  rewrite N.eqb_refl. cbn [negb]. rewrite if_eqb_true by lia. rewrite if_ltb_false by lia. rewrite if_eqb_false by lia. reflexivity.
Qed.

Lemma end_goodbye m o ls gb x : goodbye_of o ls gb -> 40 + 24 * len ls <= o -> o < UINT64_MAX ->
  parse_obj env ff (acc_of ff m) (gb ++ x) = (PDone (acc_of ff m) 0 PGoodbye, ff).
Proof.
  intros G Lo Lm. destruct (goodbye_items_of _ _ _ G) as (items & Li & ->). set (k := len ls) in *. destruct (vfg_ok items o k x Li Lo Lm) as [A B].
  set (b := items ++ le64 o ++ le64 (40 + 24 * k) ++ le64 F_GOODBYE_TAIL_MARKER) in *. clearbody b.
  assert (Hb : 16 + len b < UINT64_MAX) by lia.
  enter_obj F_GOODBYE Hb. cbn [pa_entry acc_of].
  rewrite if_ltb_false by (unfold HDR, GOODBYE_TAIL; lia). rewrite B. reflexivity.
Qed.
Lemma fn_goodbye o ls gb x : goodbye_of o ls gb -> 40 + 24 * len ls <= o -> o < UINT64_MAX ->
  parse_filename (gb ++ x) = FGoodbye o (len gb).
Proof.
  intros G Lo Lm. destruct (goodbye_items_of _ _ _ G) as (items & Li & ->). set (k := len ls) in *. destruct (vfg_ok items o k x Li Lo Lm) as [A B].
  set (b := items ++ le64 o ++ le64 (40 + 24 * k) ++ le64 F_GOODBYE_TAIL_MARKER) in *. clearbody b.
  assert (Hb : 16 + len b < UINT64_MAX) by lia.
  unfold parse_filename. cbv zeta. rewrite (obj_len F_GOODBYE), (obj_type F_GOODBYE) by reflexivity. rewrite (obj_size F_GOODBYE) by exact Hb.
  rewrite (if_ltb_false (16 + _ + _) HDR) by (unfold HDR; lia). rewrite (if_ltb_false (16 + _) HDR) by (unfold HDR; lia).
  rewrite (if_eqb_false (16 + _) UINT64_MAX) by lia. codes F_GOODBYE.
  rewrite if_ltb_false by (unfold HDR, GOODBYE_TAIL; lia). rewrite if_leb_true by lia.
  rewrite B, len_obj. reflexivity.
Qed.
End End_.
