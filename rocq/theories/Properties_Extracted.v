(** C52: a successful extraction to an empty directory leaves there the tree that was archived. *)
From Coq Require Import Permutation Sorted.
From Verif Require Import Base FeatureFlags FeatureFlagsProofs ArchiveBase Decoder DecoderSpec DecoderProofs4 DecoderProofs5 Encoder ArchiveSpec EncoderSpec EncoderProofs2 RoundTrip4 RoundTrip5 Properties_Decoder Properties_RoundTrip
  Fs Extract ExtractSpec ExtractProofs5 ExtractProofs6 Properties_Extract ExtractedSpec ExtractedProofs1 ExtractedProofs4 ExtractedProofs7 ExtractedProofs8.
Local Open Scope N_scope.

(** What is observed during an extraction is what the decoder shows. *)
Lemma works_run fe {A} (p : prog A) w w' r : works fe p w w' r -> exists l, passes fe p w l (Some r).
Proof. intros H. induction H as [r w|c k t w x w1 w2 r Ht Hr H [l IH]]; [eexists; constructor|]. eexists. econstructor; eassumption. Qed.
Lemma wpr_any fe {A} (p : prog A) : forall w, wpr fe p w (fun _ _ => True).
Proof. induction p as [r|c k IH]; intros w; cbn; [exact I|]. intros. apply IH. Qed.
Lemma xstep_decodes fe env cfg x w : wpr fe (xstep env cfg x) w (fun r _ => forall q x', r = Ok (q, x') -> decoder_step env (x_dec x) = Ok (q, x_dec x')).
Proof.
  unfold xstep. apply wpr_bind. eapply wpr_weaken; [apply wpr_any|]. cbn beta. intros [u| | |] w1 _; try discriminate.
  apply wpr_bind. eapply wpr_weaken; [apply wpr_any|]. cbn beta. intros [xs| | |] w2 _; try discriminate.
  destruct (decoder_step env (x_dec x)) as [[q d']| | |]; cbn; try discriminate. intros q' x' Q. injection Q as <- <-. reflexivity.
Qed.
Lemma extracts_drun env fe cfg x w i ob w' : extracts env fe cfg x w i ob w' -> exists rest, drun env (x_dec x) i ob (Finished rest).
Proof.
  intros H. induction H as [x p x' w i ob w' Hp H [rest IH]|x w ob w' H [rest IH]|x w w1 i r x' ob w' Hw Hr H [rest IH]|x w w1 i x' Hw].
  - unfold xput in Hp. destruct (decoder_put_data (x_dec x) p) as [d| | |] eqn:E; try discriminate. injection Hp as <-. exists rest. eapply drun_put; [exact E|exact IH].
  - exists rest. apply drun_eof. exact IH.
  - exists rest. eapply drun_step; [|exact Hr|exact IH]. exact (works_wpr fe _ _ _ _ _ Hw (xstep_decodes fe env cfg x w) _ _ eq_refl).
  - eexists. eapply drun_finished. exact (works_wpr fe _ _ _ _ _ Hw (xstep_decodes fe env cfg x w) _ _ eq_refl).
Qed.

Lemma normb_plain g : normb g 8 = true -> normb g 7 = false.
Proof. unfold normb, drop, add. lazy. destruct (g 8), (g 7), (g 29); congruence. Qed.
Lemma replay_plain ff mask flags : determine_replay_feature_flags ff mask = Ok flags -> has flags WITH_PERMISSIONS = true -> has flags WITH_READ_ONLY = false.
Proof.
  unfold determine_replay_feature_flags. generalize (N.land (feature_flags_normalize_mask ff) (feature_flags_normalize_mask mask)). intros h H.
  pose proof (proj2 (proj2 (normalize_Ok h flags H))) as B. rewrite (has_lit flags WITH_PERMISSIONS 8 eq_refl), (has_lit flags WITH_READ_ONLY 7 eq_refl), !B. apply normb_plain.
Qed.

Lemma extracts_holds env fe cfg w b mode x i t w' flags : sound_env fe -> b < f_next w -> empty_directory w b -> S_ISDIR mode = true -> xdec_new mode b = Ok x -> c_shift cfg < two32 ->
  determine_replay_feature_flags (archive_flags i) (de_mask env) = Ok flags -> has flags unmodelled = false -> extracts env fe cfg x w i (tree_obs [] t) w' ->
  typed t -> ordered t -> holds flags cfg w' b t.
Proof.
  intros Hfe Hb He Hm Hx Hs Hf Hu H Ty O.
  destruct (feeds_tree t [] [] Ty O eq_refl) as (f & F1 & F2 & F3). cbn [close] in F3. rewrite F2 in F3.
  assert (Hsel : has flags WITH_SELINUX = false). { unfold unmodelled in Hu. rewrite has_bor in Hu. cbn [existsb] in Hu. rewrite !orb_false_iff in Hu. apply Hu. }
  eapply (J_extracts env fe cfg flags b i Hfe Hs (replay_plain _ _ _ Hf) Hsel Hf); [exact H| |exact F3].
  eapply J_start; eauto.
Qed.

(** C52. Any input, fed in any pieces, extracted to an empty directory, without ACLs, SELinux labels, chattr and FAT attributes, subvolumes and quota
    projects (these aren't modelled). If all calls succeed in the end then the input describes a tree, and the directory holds this tree: the same
    files in the same directories and nothing else, except the types of files that are not to be restored; the contents, the targets of symbolic
    links, the device numbers; owners, permissions, extended attributes, capabilities and times as far as they are to be restored. The names in each directory
    have to be in order, as casync writes them; the decoder doesn't check that, see [extraction_unsorted_refuted]. *)
Theorem extraction_yields_tree_partial :
  forall env fe cfg w b mode x i ob w' flags, sound_env fe -> b < f_next w -> empty_directory w b -> S_ISDIR mode = true -> xdec_new mode b = Ok x -> c_shift cfg < two32 ->
  determine_replay_feature_flags (archive_flags i) (de_mask env) = Ok flags -> has flags unmodelled = false ->
  extracts env fe cfg x w i ob w' ->
  exists m ents, ob = tree_obs [] (TDir m ents) /\ valid_tree (TDir m ents) /\ (ordered (TDir m ents) -> holds flags cfg w' b (TDir m ents)).
Proof.
  intros env fe cfg w b mode x i ob w' flags Hfe Hb He Hm Hx Hs Hf Hu H.
  destruct (extracts_drun _ _ _ _ _ _ _ _ H) as [rest R].
  assert (Hd : decoder_new mode = Ok (x_dec x)). { unfold xdec_new in Hx. destruct (decoder_new mode); try discriminate. injection Hx as <-. reflexivity. }
  destruct (decode_valid_tree env mode _ _ _ _ Hm Hd R) as (m & ents & more & V & T & M). specialize (M _ eq_refl). subst more. rewrite app_nil_r in T. subst ob.
  exists m, ents. split; [reflexivity|]. split; [exact V|]. intros O.
  eapply extracts_holds; eauto using valid_typed.
Qed.
Print Assumptions extraction_yields_tree_partial.

(** The trees that casync archives are in order. *)
Lemma stores_ordered ev path f t : stores ev path f t -> ordered t.
Proof.
  intros H. revert path f H. induction t as [m d|m ents IH|m t|m x y|m] using tree_ind2; intros path f H; cbn [ordered]; try exact I.
  inversion H as [| | | |? s ents0 ? V Ms|? s ents0 ? kept l V Ms K1 K2 K3]; subst; [split; [constructor|exact I]|]. clear H K1. revert K2 IH. induction K3 as [|[n c] [n' c'] kept l [E S] K3 IHk]; intros K2 IH; [split; [constructor|exact I]|].
  cbn [fst snd] in E, S. subst n'. apply StronglySorted_inv in K2. destruct K2 as [K2 K4]. apply Forall_cons_iff in IH. destruct IH as [I1 I2]. destruct (IHk K2 I2) as [O1 O2].
  split; [|split; [eapply I1; exact S|exact O2]]. constructor; [exact O1|]. cbn [fst]. clear -K3 K4. induction K3 as [|a b kept l [E S] K3 IH]; [constructor|]. apply Forall_cons_iff in K4. destruct K4 as [K4 K5].
  constructor; [cbn [fst] in *; congruence|auto].
Qed.
Lemma dec_typed ff t : dec_tree ff t -> typed t.
Proof.
  induction t as [m d|m ents IH|m t|m x y|m] using tree_ind2; intros H; inversion H; subst; cbn [typed]; auto. split; [assumption|].
  match goal with H : Forall _ ents |- _ => rename H into A end. clear H. induction ents as [|[n c] ents IHe]; [exact I|]. apply Forall_cons_iff in IH, A. destruct IH as [I1 I2], A as [[_ A1] A2]. split; [apply I1, A1|]. apply IHe; assumption.
Qed.

(** C52. The way from one directory to another: what was archived is what the target holds. *)
Theorem archive_then_extract_partial :
  forall ev f e o env fe cfg w b mode x ob w' flags, configured ev -> qsort_ok (ev_qsort ev) -> storable ev [] f -> S_ISDIR (f_mode f) = true ->
  encoder_new f = Ok e -> eruns ev e o EFinished -> len o < UINT64_MAX - 16 -> (de_expected env = UINT64_MAX \/ de_expected env = ev_ff ev) ->
  sound_env fe -> b < f_next w -> empty_directory w b -> S_ISDIR mode = true -> xdec_new mode b = Ok x -> c_shift cfg < two32 ->
  determine_replay_feature_flags (ev_ff ev) (de_mask env) = Ok flags -> has flags unmodelled = false ->
  extracts env fe cfg x w o ob w' ->
  exists t, stores ev [] f t /\ (forall t', stores ev [] f t' -> t' = t) /\ holds flags cfg w' b t.
Proof.
  intros ev f e o env fe cfg w b mode x ob w' flags C Q St D He R L Ex Hfe Hb Hem Hm Hx Hs Hf Hu H.
  destruct (extracts_drun _ _ _ _ _ _ _ _ H) as [rest Rd].
  assert (Hd : decoder_new mode = Ok (x_dec x)). { unfold xdec_new in Hx. destruct (decoder_new mode); try discriminate. injection Hx as <-. reflexivity. }
  destruct (archive_shown env ev f e o mode _ _ _ C Q St D He R L Ex Hm Hd Rd) as (_ & t & S & A & T & ->).
  exists t. split; [exact S|]. split; [intros t' S'; eapply stores_unique; eauto|].
  pose proof (arch_flags _ _ _ C A) as Af. change (fld 16 o) with (archive_flags o) in Af.
  rewrite <- Af in Hf. eapply extracts_holds; eauto using dec_typed, stores_ordered.
Qed.
Print Assumptions archive_then_extract_partial.

(** * Cases *)
Section Go.
Variables (env : denv) (fe : fenv) (cfg : xcfg).
Fixpoint perform {A} (p : prog A) (w : fs) : res A * fs :=
  match p with Ret r => (r, w) | Sys c k => let (x, w1) := fs_do fe w c in perform (k x) w1 end.
Lemma perform_works {A} (p : prog A) : forall w, works fe p w (snd (perform p w)) (fst (perform p w)).
Proof.
  induction p as [r|c k IH]; intros w; cbn [perform]; [constructor|]. destruct (fs_do fe w c) as [x w1] eqn:E.
  eapply works_call with (t := TNone); [exact I|exact E|apply IH].
Qed.
Fixpoint go (n : nat) (x : xdec) (w : fs) : option (list obs * fs) :=
  match n with
  | O => None
  | S n => match perform (xstep env cfg x) w with
           | (Ok (R_FINISHED, _), w1) => Some ([], w1)
           | (Ok (r, x'), w1) => match go n x' w1 with Some (ob, w') => Some (observe r (x_dec x') ++ ob, w') | None => None end
           | _ => None
           end
  end.
Lemma go_extracts n : forall x w ob w', go n x w = Some (ob, w') -> extracts env fe cfg x w [] ob w'.
Proof.
  induction n as [|n IH]; intros x w ob w' H; cbn [go] in H; [discriminate|]. pose proof (perform_works (xstep env cfg x) w) as W.
  destruct (perform (xstep env cfg x) w) as [[[r x']| | |] w1]; try discriminate. cbn [fst snd] in W.
  assert (Fin : r = R_FINISHED \/ r <> R_FINISHED) by (destruct r; auto; right; discriminate). destruct Fin as [-> | Fin]; [injection H as <- <-; eapply extracts_done; exact W|].
  assert (H' : match go n x' w1 with Some (ob, w') => Some (observe r (x_dec x') ++ ob, w') | None => None end = Some (ob, w')) by (destruct r; congruence).
  destruct (go n x' w1) as [[ob1 w2]|] eqn:G; [|discriminate]. injection H' as <- <-. eapply extracts_step; [exact W|exact Fin|apply IH, G].
Qed.
(** The archive is fed at once. *)
Definition extract_all (b : N) (arch : list N) (w : fs) : option (list obs * fs) :=
  match xdec_new 0x4000 b with
  | Ok x => match xput x arch with Ok x => go 1000 (xput_eof x) w | _ => None end
  | _ => None
  end.
Lemma extract_all_ok b arch w ob w' x : xdec_new 0x4000 b = Ok x -> extract_all b arch w = Some (ob, w') -> extracts env fe cfg x w arch ob w'.
Proof.
  intros H E. unfold extract_all in E. rewrite H in E. destruct (xput x arch) as [x'| | |] eqn:Q; try discriminate. rewrite <- (app_nil_r arch). eapply extracts_put; [exact Q|]. apply extracts_eof. eapply go_extracts, E.
Qed.
End Go.

(** The target, number 1, is empty; 2 is another directory. *)
Definition world1 : fs := mkFs (fun i => match i with 1 => Some (mkInode (plain_attrs false) (BDir [])) | 2 => Some (mkInode (plain_attrs false) (BDir [([116], 1)])) | _ => None end) 3.
Definition the_flags (ff mask : N) : N := match determine_replay_feature_flags ff mask with Ok f => f | _ => 0 end.
Definition obs_of (r : option (list obs * fs)) : list obs := match r with Some (o, _) => o | None => [] end.
Definition fs_of (r : option (list obs * fs)) : fs := match r with Some (_, w) => w | None => world1 end.

(** The archive of Properties_RoundTrip.v, extracted without ACLs. *)
Example extracted_case :
  exists e x ob w' flags, configured rt_env /\ qsort_ok (ev_qsort rt_env) /\ storable rt_env [] rt_tree /\ S_ISDIR (f_mode rt_tree) = true /\
  encoder_new rt_tree = Ok e /\ eruns rt_env e rt_bytes EFinished /\ len rt_bytes < UINT64_MAX - 16 /\ de_expected envm = UINT64_MAX /\
  sound_env kernel /\ 1 < f_next world1 /\ empty_directory world1 1 /\ S_ISDIR 0x4000 = true /\ xdec_new 0x4000 1 = Ok x /\ c_shift (config false) < two32 /\
  determine_replay_feature_flags (ev_ff rt_env) (de_mask envm) = Ok flags /\ archive_flags rt_bytes = ev_ff rt_env /\ has flags unmodelled = false /\
  extracts envm kernel (config false) x world1 rt_bytes ob w' /\ ob = tree_obs [] rt_stored /\ ordered rt_stored /\
  holds flags (config false) w' 1 rt_stored /\
  option_map i_body (f_ino w' 1) = Some (BDir [([99], 5); ([98], 4); ([97], 3)]) /\ option_map i_body (f_ino w' 4) = Some (BReg [7; 8; 9]) /\
  option_map i_body (f_ino w' 5) = Some (BLnk [98]).
Proof.
  destruct round_trip_case as (e & d & C1 & C2 & C3 & C4 & C5 & C6 & C7 & C8 & C9).
  assert (Go : exists w', extract_all envm kernel (config false) 1 rt_bytes world1 = Some (tree_obs [] rt_stored, w') /\ w' = fs_of (extract_all envm kernel (config false) 1 rt_bytes world1)).
  { destruct (extract_all envm kernel (config false) 1 rt_bytes world1) as [[ob w']|] eqn:G; [|exfalso; revert G; vm_compute; discriminate].
    exists w'. split; [|reflexivity]. f_equal. f_equal.
    assert (X : obs_of (extract_all envm kernel (config false) 1 rt_bytes world1) = tree_obs [] rt_stored) by (vm_compute; reflexivity). rewrite G in X. exact X. }
  destruct Go as (w' & G & W).
  assert (Hx : exists x, xdec_new 0x4000 1 = Ok x) by (eexists; reflexivity). destruct Hx as [x Hx].
  pose proof (extract_all_ok envm kernel (config false) 1 rt_bytes world1 _ _ x Hx G) as Ex.
  assert (O : ordered rt_stored). { cbn. repeat split; repeat constructor. }
  exists e, x, (tree_obs [] rt_stored), w', (the_flags (ev_ff rt_env) (de_mask envm)). repeat (split; [assumption|]).
  assert (Hem : empty_directory world1 1) by (eexists; reflexivity).
  assert (Hfe : sound_env kernel) by (intros l; apply Permutation_refl).
  assert (Hf : determine_replay_feature_flags (ev_ff rt_env) (de_mask envm) = Ok (the_flags (ev_ff rt_env) (de_mask envm))) by (vm_compute; reflexivity).
  assert (Hu : has (the_flags (ev_ff rt_env) (de_mask envm)) unmodelled = false) by (vm_compute; reflexivity).
  assert (Hfa : archive_flags rt_bytes = ev_ff rt_env) by (vm_compute; reflexivity).
  split; [reflexivity|]. split; [exact Hfe|]. split; [reflexivity|]. split; [exact Hem|]. split; [reflexivity|]. split; [exact Hx|]. split; [reflexivity|]. split; [exact Hf|].
  split; [exact Hfa|]. split; [exact Hu|]. split; [exact Ex|]. split; [reflexivity|]. split; [exact O|].
  split. { rewrite <- Hfa in Hf. eapply (extracts_holds envm kernel (config false) world1 1 0x4000 x rt_bytes rt_stored w' _ Hfe eq_refl Hem eq_refl Hx eq_refl Hf Hu Ex); [|exact O]. cbn. repeat split. }
  rewrite W. split; [|split]; vm_compute; reflexivity.
Qed.

(** * What doesn't hold *)
Definition meta0 (mode : N) : meta := mkMeta mode 0 0 0 0 None None [] [] [] UINT64_MAX UINT64_MAX UINT64_MAX UINT64_MAX UINT64_MAX [] [] None None None.
Lemma extract_all_obs env fe cfg b arch w t x : xdec_new 0x4000 b = Ok x -> (match extract_all env fe cfg b arch w with Some _ => True | None => False end) ->
  obs_of (extract_all env fe cfg b arch w) = tree_obs [] t -> extracts env fe cfg x w arch (tree_obs [] t) (fs_of (extract_all env fe cfg b arch w)).
Proof.
  intros H E O. destruct (extract_all env fe cfg b arch w) as [[ob w']|] eqn:G; [|contradiction]. cbn [obs_of fs_of] in *. subst ob. eapply extract_all_ok; eassumption.
Qed.

Lemma component1 c : c <> 0 -> c <> 46 -> c <> 47 -> is_component [c].
Proof. intros A B C. unfold is_component. repeat split; try discriminate; try congruence; intros [Q | []]; congruence. Qed.
Lemma valid_meta0 mode : mode < 65536 -> S_ISLNK mode = false -> valid_meta (meta0 mode).
Proof.
  intros H1 H2. assert (U : forall q, q = UINT64_MAX -> is_perm_opt q) by (intros q ->; right; reflexivity). assert (L : is_acl_list []) by (split; constructor).
  assert (Id : is_id 0) by (split; [reflexivity|discriminate]).
  constructor; cbn [meta0 m_mode m_uid m_gid m_user m_group m_xattrs m_acl_user m_acl_group m_acl_group_obj m_acl_default_user_obj m_acl_default_group_obj m_acl_default_other m_acl_default_mask m_acl_default_user
    m_acl_default_group m_selinux m_fcaps m_projid m_flags]; auto; try discriminate; try (constructor; fail); try (intros [Q | Q]; exfalso; apply Q; reflexivity); try congruence; auto 10.
Qed.

(** Two files "b" and "a", in this order, are extracted with --delete: the list of names is searched as if it was in order (cadecoder.c:3313-3365), and "b", just extracted, is
    deleted. *)
Definition unsorted_tree : tree := TDir (meta0 0x41ED) [([98], TReg (meta0 0x81A4) [7; 8]); ([97], TReg (meta0 0x81A4) [])].
Definition env_perm : denv := mkDenv UINT64_MAX WITH_PERMISSIONS.
Definition unsorted_run := extract_all env_perm kernel (config false) 1 (Properties_Decoder.arch [98] [97]) world1.
Theorem extraction_unsorted_refuted :
  exists x w' flags, sound_env kernel /\ 1 < f_next world1 /\ empty_directory world1 1 /\ S_ISDIR 0x4000 = true /\ xdec_new 0x4000 1 = Ok x /\ c_shift (config false) < two32 /\
  determine_replay_feature_flags (archive_flags (Properties_Decoder.arch [98] [97])) (de_mask env_perm) = Ok flags /\ has flags unmodelled = false /\ valid_tree unsorted_tree /\
  extracts env_perm kernel (config false) x world1 (Properties_Decoder.arch [98] [97]) (tree_obs [] unsorted_tree) w' /\
  (exists a i, f_ino w' 1 = Some (mkInode a (BDir [([97], i)]))) /\ ~ holds flags (config false) w' 1 unsorted_tree.
Proof.
  assert (Hx : exists x, xdec_new 0x4000 1 = Ok x) by (eexists; reflexivity). destruct Hx as [x Hx].
  assert (E : extracts env_perm kernel (config false) x world1 (Properties_Decoder.arch [98] [97]) (tree_obs [] unsorted_tree) (fs_of unsorted_run)).
  { apply extract_all_obs; [exact Hx|vm_compute; exact I|vm_compute; reflexivity]. }
  assert (Dir : exists a i, f_ino (fs_of unsorted_run) 1 = Some (mkInode a (BDir [([97], i)]))).
  { exists (match f_ino (fs_of unsorted_run) 1 with Some nd => i_attrs nd | None => plain_attrs false end), 4. vm_compute. reflexivity. }
  exists x, (fs_of unsorted_run), (the_flags (archive_flags (Properties_Decoder.arch [98] [97])) (de_mask env_perm)).
  split; [intros l; apply Permutation_refl|]. split; [reflexivity|]. split; [eexists; reflexivity|]. split; [reflexivity|]. split; [exact Hx|]. split; [reflexivity|].
  split; [vm_compute; reflexivity|]. split; [vm_compute; reflexivity|].
  split; [cbn; repeat (apply conj); try exact I; try reflexivity; try (apply valid_meta0; vm_compute; reflexivity); apply component1; discriminate|].
  split; [exact E|]. split; [exact Dir|]. destruct Dir as (a & i & Di). intros H. unfold unsorted_tree in H. inversion H as [|? ? ? a1 es H1 H2 H3 H4 H5 H6| | |]; subst. rewrite Di in H1. injection H1 as <- <-.
  inversion H6 as [|? ? ? ? Hr H7|? ? ? ? ? Hin Hh H7]; subst; [apply Hr; exact I|]. destruct Hin as [Q | []]. discriminate.
Qed.
Print Assumptions extraction_unsorted_refuted.

(** With WITH_READ_ONLY a file that nobody may write is extracted as one that nobody may read either: cadecoder.c:3691 takes away the permission to read instead of the
    permission to write. *)
Definition ro_env : eenv := env_of (bor [WITH_READ_ONLY; WITH_SEC_TIME]) (fun _ => None).
Definition ro_tree : fnode := FDir (rt_stat 0x41ED 0 5 0 [] []) [([98], FReg (rt_stat 0x8124 0 6 0 [] []) 3 [7; 8; 9])].
Definition ro_meta (mode sec : N) : meta := mkMeta mode 0 0 0 (sec * 1000000000) None None [] [] [] UINT64_MAX UINT64_MAX UINT64_MAX UINT64_MAX UINT64_MAX [] [] None None None.
Definition ro_stored : tree := TDir (ro_meta 0x41FF 5) [([98], TReg (ro_meta 0x8124 6) [7; 8; 9])].
Definition ro_bytes : list N := fst (encode ro_env ro_tree).
Definition env_ro : denv := mkDenv UINT64_MAX (bor [WITH_READ_ONLY; WITH_SEC_TIME]).
Definition ro_run := extract_all env_ro kernel (config false) 1 ro_bytes world1.
Theorem extraction_read_only_refuted :
  exists e x w' i a a1, encoder_new ro_tree = Ok e /\ eruns ro_env e ro_bytes EFinished /\ xdec_new 0x4000 1 = Ok x /\
  extracts env_ro kernel (config false) x world1 ro_bytes (tree_obs [] ro_stored) w' /\
  f_ino w' 1 = Some (mkInode a (BDir [([98], i)])) /\ f_ino w' i = Some (mkInode a1 (BReg [7; 8; 9])) /\ a_perm a1 = 0.
Proof.
  assert (Hx : exists x, xdec_new 0x4000 1 = Ok x) by (eexists; reflexivity). destruct Hx as [x Hx].
  assert (E : extracts env_ro kernel (config false) x world1 ro_bytes (tree_obs [] ro_stored) (fs_of ro_run)).
  { apply extract_all_obs; [exact Hx|vm_compute; exact I|vm_compute; reflexivity]. }
  destruct (encoder_new ro_tree) as [e| | |] eqn:H; try discriminate.
  exists e, x, (fs_of ro_run), 3, (match f_ino (fs_of ro_run) 1 with Some nd => i_attrs nd | None => plain_attrs false end), (match f_ino (fs_of ro_run) 3 with Some nd => i_attrs nd | None => plain_attrs false end).
  split; [reflexivity|]. split.
  { assert (Q : snd (encode ro_env ro_tree) = Ok (match snd (encode ro_env ro_tree) with Ok x => x | _ => (0, ecache0) end)) by (vm_compute; reflexivity).
    unfold ro_bytes. eapply encode_runs; [exact H|]. rewrite <- Q. apply surjective_pairing. }
  split; [exact Hx|]. split; [exact E|]. split; [vm_compute; reflexivity|]. split; vm_compute; reflexivity.
Qed.
Print Assumptions extraction_read_only_refuted.

(** A file with a name of 238 bytes: the file system takes 255, but extraction adds 18 for the temporary name. *)
Fixpoint go_err (env : denv) (fe : fenv) (cfg : xcfg) (n : nat) (x : xdec) (w : fs) : option errno :=
  match n with
  | O => None
  | S n => match perform fe (xstep env cfg x) w with
           | (Ok (R_FINISHED, _), w1) => None
           | (Ok (r, x'), w1) => go_err env fe cfg n x' w1
           | (Err e, _) => Some e
           | _ => None
           end
  end.
(** Without any trouble, extraction of this input ends with this error. *)
Inductive extract_fails (env : denv) (fe : fenv) (cfg : xcfg) (e : errno) : xdec -> fs -> Prop :=
| ef_now x w w1 : works fe (xstep env cfg x) w w1 (Err e) -> extract_fails env fe cfg e x w
| ef_later x w r x' w1 : works fe (xstep env cfg x) w w1 (Ok (r, x')) -> r <> R_FINISHED -> extract_fails env fe cfg e x' w1 -> extract_fails env fe cfg e x w.
Lemma go_err_ok env fe cfg n e : forall x w, go_err env fe cfg n x w = Some e -> extract_fails env fe cfg e x w.
Proof.
  induction n as [|n IH]; intros x w H; cbn [go_err] in H; [discriminate|]. pose proof (perform_works fe (xstep env cfg x) w) as W.
  destruct (perform fe (xstep env cfg x) w) as [[[r x']| | |] w1]; try discriminate; cbn [fst snd] in W; [|injection H as ->; eapply ef_now; exact W].
  assert (Fin : r = R_FINISHED \/ r <> R_FINISHED) by (destruct r; auto; right; discriminate). destruct Fin as [-> | Fin]; [discriminate|].
  eapply ef_later; [exact W|exact Fin|]. apply IH. destruct r; congruence.
Qed.
Definition long_name : list N := repeat 97 238.
Theorem extraction_long_name_refuted :
  exists x x' d o, len long_name <= NAME_MAX /\ decoder_new 0x4000 = Ok d /\ drun env_perm d (Properties_Decoder.arch long_name [98]) o (Finished []) /\
  xdec_new 0x4000 1 = Ok x /\ xput x (Properties_Decoder.arch long_name [98]) = Ok x' /\ extract_fails env_perm kernel (config false) ENAMETOOLONG (xput_eof x') world1.
Proof.
  set (A := Properties_Decoder.arch long_name [98]).
  assert (Q : match xdec_new 0x4000 1 with Ok x => match xput x A with Ok x' => go_err env_perm kernel (config false) 1000 (xput_eof x') world1 | _ => None end | _ => None end = Some ENAMETOOLONG)
    by (vm_compute; reflexivity).
  destruct (xdec_new 0x4000 1) as [x| | |] eqn:Hx; try discriminate. destruct (xput x A) as [x'| | |] eqn:Hp; try discriminate.
  destruct (decode_drun env_perm 0x4000 A (fst (decode env_perm 0x4000 A)) (Finished [])) as (d & Hd & R); [vm_compute; reflexivity|].
  exists x, x', d, (fst (decode env_perm 0x4000 A)). split; [vm_compute; discriminate|]. split; [exact Hd|]. split; [exact R|]. split; [reflexivity|]. split; [exact Hp|].
  apply (go_err_ok _ _ _ 1000). exact Q.
Qed.
Print Assumptions extraction_long_name_refuted.
