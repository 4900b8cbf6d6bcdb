(** What happens to the open directories when a file is made, written, finished. *)
From Coq Require Import Permutation Sorted.
From Verif Require Import Base FeatureFlags FeatureFlagsProofs ArchiveBase Decoder DecoderSpec DecoderProofs DecoderProofs5 Encoder Fs Extract ExtractSpec ExtractProofs1 ExtractProofs2 ExtractProofs3
  ExtractedSpec ExtractedProofs1 ExtractedProofs2 ExtractedProofs3 ExtractedProofs4 ExtractedProofs5.
Local Open Scope N_scope.

Section Work.
Variables (fe : fenv) (cfg : xcfg) (flags b : N).
Hypothesis Hfe : sound_env fe.
Hypothesis Hshift : c_shift cfg < two32.
Hypothesis Hperm : has flags WITH_PERMISSIONS = true -> has flags WITH_READ_ONLY = false.
Hypothesis Hsel : has flags WITH_SELINUX = false.
Notation wok := (wok fe).
Notation levels := (levels cfg flags b).
Notation hold := (hold cfg flags).
Notation kids_ok := (kids_ok cfg flags).

Lemma hold_F F w i t : hold F w i t -> F i.
Proof. intros H. inversion H; assumption. Qed.

Definition mode_of (f : frame) : N := m_mode (dt_meta (fr_entry f)).
(** A file that isn't a directory, between realization and its end. *)
Definition pending (F : N -> Prop) (w : fs) (f : frame) (frs : list frame) (c : xnode) (up : list xnode) : Prop :=
  up <> [] /\ is_component (fr_name f) /\ fits (fr_name f) frs = true /\ entry_shape (fr_entry f) /\ S_ISDIR (mode_of f) = false /\
  ((skip flags (mode_of f) = true /\ c = xnode0 /\ levels F w (Some (fr_name f)) [] (f_next w) up frs) \/
   (skip flags (mode_of f) = false /\ exists t i bd a, x_tmp c = Some t /\ is_component t /\ t <> fr_name f /\ i < f_next w /\ ~ F i /\
      f_ino w i = Some (mkInode a bd) /\ kind_body (fr_entry f) bd /\
      ((S_ISREG (mode_of f) = true /\ x_fd c = Some i /\ bd = BReg (fr_data f)) \/ (S_ISREG (mode_of f) = false /\ x_fd c = None)) /\
      (forall tg, bd = BLnk tg -> a_perm a = 0x1FF) /\ levels F w (Some (fr_name f)) [(t, i)] i up frs)).

Lemma str_lt_irrefl s : ~ str_lt s s.
Proof. unfold str_lt. rewrite strcmp_refl. discriminate. Qed.
Lemma fresh_name F w p frs km name : kids_ok F w (fr_kids p) km -> fits name (p :: frs) = true -> ~ In name (map fst km).
Proof.
  intros K Fi Q. apply (kids_names _ _ _ _ _ _ K) in Q. apply fits_iff in Fi. rewrite Forall_forall in Fi. apply in_map_iff in Q. destruct Q as (k & <- & Q). exact (str_lt_irrefl _ (Fi _ Q)).
Qed.
Lemma sorted_snoc l n : StronglySorted str_lt l -> Forall (fun k => str_lt k n) l -> StronglySorted str_lt (l ++ [n]).
Proof.
  intros S Fo. induction S as [|x l S IH F1]; cbn; [constructor; constructor|]. apply Forall_cons_iff in Fo. destruct Fo as [F2 F3].
  constructor; [apply IH, F3|]. apply Forall_app. split; [exact F1|constructor; [exact F2|constructor]].
Qed.
Lemma fits_names name p frs : fits name (p :: frs) = true -> Forall (fun k => str_lt k name) (map fst (fr_kids p)).
Proof. intros H. apply fits_iff in H. rewrite Forall_forall in *. intros k Q. apply in_map_iff in Q. destruct Q as (e & <- & Q). apply H, Q. Qed.

(** ** The name of the next file *)
Lemma levels_name F w lim c up frs n : levels F w None [] lim (c :: up) frs ->
  levels F w (Some n) [] lim (mkXnode (x_fd c) (x_tmp c) (if c_delete cfg then x_dirents c ++ [n] else x_dirents c) :: up) frs.
Proof.
  intros H. inversion H as [|? ? ? ? fr ? frs' i a es km H1 H2 H3 H4 H5 H6 H7 H8 H9 H10 H11 H12 H13 H14]; subst. econstructor; eauto. intros Q. cbn [x_dirents]. rewrite Q, (H8 Q), app_nil_r. reflexivity.
Qed.

(** ** Realizing *)
Lemma wok_levels_realize (F : N -> Prop) w p up frs d name e : (forall j, F j -> j < f_next w) -> levels F w (Some name) [] (f_next w) (p :: up) frs -> x_fd p = Some d ->
  is_component name -> fits name frs = true -> entry_shape e ->
  wok (realize_child flags d name e xnode0) w (fun c w1 => f_next w <= f_next w1 /\
    ((S_ISDIR (m_mode (dt_meta e)) = true /\ levels F w1 None [] (f_next w1) (c :: p :: up) (mkFrame name e [] [] :: frs)) \/
     (S_ISDIR (m_mode (dt_meta e)) = false /\ pending F w1 (mkFrame name e [] []) frs c (p :: up)))).
Proof.
  intros HF HL Hp Hn Fi Hs. inversion HL as [|? ? ? ? fr ? frs' i a es km H1 H2 H3 H4 H5 H6 H7 H8 H9 H10 H11 H12 H13 H14]; subst. assert (i = d) by congruence. subst i. cbn [app] in H6.
  pose proof (fresh_name _ _ _ _ _ _ H7 Fi) as Fr.
  eapply wok_weaken; [apply (wok_realize fe flags w d a es name e Hn H5 H3 (same_none _ _ _ H6 Fr) Hs)|]. cbn beta.
  intros c w1 [(Sk & -> & ->) | (Sk & tn & bd & (T1 & T2 & a1 & T3 & G1 & G2 & (ad & G3) & G4) & Kb & Cs)].
  - split; [lia|]. right. assert (Nd : S_ISDIR (m_mode (dt_meta e)) = false).
    { destruct (S_ISDIR (m_mode (dt_meta e))) eqn:E; [|reflexivity]. rewrite skip_plain in Sk by (rewrite E; reflexivity). discriminate. }
    split; [exact Nd|]. split; [discriminate|]. cbn [fr_name fr_entry]. split; [exact Hn|]. split; [exact Fi|]. split; [exact Hs|]. split; [exact Nd|]. left. auto.
  - rewrite G1. split; [lia|].
    assert (Nt : ~ In tn (map fst km)).
    { apply get_none in T2. intros Q. apply T2. apply in_map_iff in Q. destruct Q as (x & <- & Q). apply in_map, H6, Q. }
    assert (Lv : levels F w1 (Some name) [(tn, f_next w)] (f_next w) (p :: up) (fr :: frs')).
    { apply lv_cons with (i := d) (a := ad) (es := put tn (f_next w) es) (km := km); auto.
      - apply (same_put _ _ _ _ H6 Nt).
      - eapply (proj2 (hold_frame cfg flags F w F w1 ltac:(auto) _)). exact H7. Unshelve. intros j Q. apply G4; [intros ->; contradiction|]. intros ->. specialize (HF _ Q). lia.
      - eapply levels_frame; [| exact H14 | |]; auto. intros j Q. apply G4; destruct Q as [Q | Q]; try (intros ->; contradiction); try lia. intros ->. specialize (HF _ Q). lia. }
    assert (Nf : ~ F (f_next w)) by (intros Q; specialize (HF _ Q); lia).
    destruct Cs as [(D1 & -> & -> & ->) | Cs].
    + left. split; [exact D1|]. eapply lv_cons with (i := f_next w) (km := []); try reflexivity; auto; try lia.
      * exact G2.
      * split; [constructor|tauto].
      * constructor.
      * constructor.
      * discriminate.
    + right. assert (Nd : S_ISDIR (m_mode (dt_meta e)) = false).
      { destruct Cs as [(D1 & _) | (D1 & _)]; [|exact D1]. apply (type_excl _ S_IFREG S_IFDIR); [discriminate|exact D1]. }
      split; [exact Nd|]. split; [discriminate|]. cbn [fr_name fr_entry]. split; [exact Hn|]. split; [exact Fi|]. split; [exact Hs|]. split; [exact Nd|]. right. split; [exact Sk|].
      destruct Cs as [(D1 & -> & D2 & ->) | (_ & D1 & -> & D2)].
      * exists tn, (f_next w), (BReg []), a1. cbn [x_tmp x_fd fr_entry fr_data]. rewrite G1. repeat (split; [assumption || reflexivity || lia|]). split; [left; auto|]. split; [discriminate|exact Lv].
      * exists tn, (f_next w), bd, a1. cbn [x_tmp x_fd fr_entry fr_data]. rewrite G1. repeat (split; [assumption || reflexivity || lia|]). split; [right; auto|]. split; [exact T3|exact Lv].
Qed.

(** ** Writing *)
Lemma now_levels (F : N -> Prop) w i nd w1 pend extra lim up frs : now w i nd w1 -> ~ F i -> lim <= i -> levels F w pend extra lim up frs -> levels F w1 pend extra lim up frs.
Proof.
  intros (N1 & N2 & N3) HF L H. eapply levels_frame; [|exact H| |]; auto. intros j Q. apply N2. destruct Q as [Q | Q]; [intros ->; contradiction|lia].
Qed.
Lemma wok_pending_write (F : N -> Prop) w name e data frs c up i p : pending F w (mkFrame name e [] data) frs c up -> x_fd c = Some i ->
  wok (write_all (length p) i p) w (fun _ w1 => f_next w1 = f_next w /\ pending F w1 (mkFrame name e [] (data ++ p)) frs c up).
Proof.
  intros (H1 & H2 & H3 & H4 & H5 & H6) Hx. unfold mode_of in *. cbn [fr_name fr_entry fr_data] in *.
  destruct H6 as [(_ & -> & _) | (Sk & t & j & bd & a & P1 & P2 & P3 & P4 & P5 & P6 & P7 & P8 & P9 & P10)]; [discriminate|].
  destruct P8 as [(P8 & P11 & ->) | (_ & P8)]; [|congruence]. assert (j = i) by congruence. subst j.
  eapply wok_weaken; [apply (wok_write fe _ _ _ _ _ _ P6)|]. cbn beta. intros _ w1 (a1 & N1). split; [apply N1|].
  split; [exact H1|]. unfold mode_of. cbn [fr_name fr_entry fr_data]. split; [exact H2|]. split; [exact H3|]. split; [exact H4|]. split; [exact H5|]. right. split; [exact Sk|].
  exists t, i, (BReg (data ++ p)), a1. rewrite (proj1 N1). repeat (split; [assumption|]). split; [apply N1|]. split; [exact P8|]. split; [left; auto|]. split; [discriminate|].
  eapply now_levels; [exact N1|exact P5|reflexivity|exact P10].
Qed.

(** ** Finishing *)
Definition add_kid (p : frame) (name : list N) (t : tree) : frame := mkFrame (fr_name p) (fr_entry p) (fr_kids p ++ [(name, t)]) (fr_data p).
Lemma close_add f p st : close f (p :: st) = Building (add_kid p (fr_name f) (tree_of f) :: st).
Proof. reflexivity. Qed.

Lemma shape_tree f : entry_shape (fr_entry f) -> S_ISDIR (mode_of f) = false -> forall i bd a (F : N -> Prop) w, kind_body (fr_entry f) bd ->
  (S_ISREG (mode_of f) = true -> bd = BReg (fr_data f)) -> F i -> f_ino w i = Some (mkInode a bd) ->
  attrs_ok flags cfg (dt_meta (fr_entry f)) a -> (forall data, bd = BReg data -> xattrs_ok flags (dt_meta (fr_entry f)) a /\ fcaps_ok flags (dt_meta (fr_entry f)) a) -> hold F w i (tree_of f).
Proof.
  intros Sh Nd i bd a F w K Hr HF Hi Ha Hx. unfold tree_of, mode_of in *. set (e := fr_entry f) in *. clearbody e.
  assert (Ty : forall m t t', is_type m t = true -> t <> t' -> is_type m t' = false) by (intros m t t' Q1 Q2; exact (type_excl m t t' Q2 Q1)).
  destruct Sh as [m s V T|m V T|m t V T T1 T2 T3|m x y V T X Y|m V T]; cbn [dt_meta dt_symlink dt_dev] in *.
  - rewrite T. specialize (Hr T). subst bd. destruct (Hx _ eq_refl). eapply hold_reg; eassumption.
  - congruence.
  - assert (R : S_ISREG (m_mode m) = false) by (apply (Ty _ _ S_IFREG T); discriminate). rewrite R, Nd. destruct bd as [|es|tg|q x y| |]; cbn in K; try (apply (Ty _ _ S_IFLNK) in K; [unfold S_ISLNK in T; congruence|discriminate]).
    + destruct K as [_ K]. injection K as ->. eapply hold_lnk; eassumption.
    + destruct K as (K & _). apply orb_true_iff in K. exfalso. destruct K as [K | K]; apply (Ty _ _ S_IFLNK) in K; try discriminate; unfold S_ISLNK in T; congruence.
  - assert (R : S_ISREG (m_mode m) = false) by (apply orb_true_iff in T; destruct T as [T | T]; apply (Ty _ _ S_IFREG T); discriminate). rewrite R, Nd.
    assert (Tx : forall k, is_type (m_mode m) k = true -> k <> S_IFBLK -> k <> S_IFCHR -> False).
    { intros k K1 K2 K3. apply orb_true_iff in T. destruct T as [T | T]; [apply (Ty _ _ S_IFBLK) in K1; auto|apply (Ty _ _ S_IFCHR) in K1; auto]; unfold S_ISBLK, S_ISCHR in T; congruence. }
    destruct bd as [|es|tg|q x1 y1| |]; cbn in K; try (exfalso; apply (Tx _ K); discriminate); [exfalso; apply (Tx _ (proj1 K)); discriminate|].
    destruct K as (_ & K & ->). injection K as -> ->. eapply hold_dev; eassumption.
  - assert (R : S_ISREG (m_mode m) = false) by (apply orb_true_iff in T; destruct T as [T | T]; apply (Ty _ _ S_IFREG T); discriminate). rewrite R, Nd.
    assert (Tx : forall k, is_type (m_mode m) k = true -> k <> S_IFIFO -> k <> S_IFSOCK -> False).
    { intros k K1 K2 K3. apply orb_true_iff in T. destruct T as [T | T]; [apply (Ty _ _ S_IFIFO) in K1; auto|apply (Ty _ _ S_IFSOCK) in K1; auto]; unfold S_ISFIFO, S_ISSOCK in T; congruence. }
    destruct bd as [|es|tg|q x1 y1| |]; cbn in K; try (exfalso; apply (Tx _ K); discriminate).
    + exfalso. apply (Tx _ (proj1 K)); discriminate.
    + destruct K as (_ & K & _). discriminate.
    + eapply hold_other; [eassumption| |eassumption]. rewrite K. exact Hi.
    + eapply hold_other; [eassumption| |eassumption]. unfold S_ISFIFO. rewrite (Ty _ _ S_IFIFO K) by discriminate. exact Hi.
Qed.

Lemma levels_kid (F : N -> Prop) w lim p up fr frs d a es km name t (F' : N -> Prop) w1 : 
  levels F w (Some name) [] lim (p :: up) (fr :: frs) \/ (exists x, levels F w (Some name) [x] lim (p :: up) (fr :: frs)) ->
  x_fd p = Some d -> fits name (fr :: frs) = true ->
  (forall j, F j -> F' j) -> (forall j, F' j -> F j \/ d < j) -> (forall j, F j \/ j < d -> f_ino w1 j = f_ino w j) ->
  f_ino w1 d = Some (mkInode a (BDir es)) -> same es km -> kids_ok F' w1 (fr_kids fr ++ [(name, t)]) km ->
  levels F' w1 None [] lim (p :: up) (add_kid fr name t :: frs).
Proof.
  intros HL Hp Fi HF HF' Hw Hd Hs Hk.
  assert (HL' : exists x, levels F w (Some name) x lim (p :: up) (fr :: frs)) by (destruct HL as [HL | [x HL]]; eauto). clear HL. destruct HL' as [x HL].
  inversion HL as [|? ? ? ? ? ? ? i a0 es0 km0 H1 H2 H3 H4 H5 H6 H7 H8 H9 H10 H11 H12 H13 H14]; subst. assert (i = d) by congruence. subst i.
  apply lv_cons with (i := d) (a := a) (es := es) (km := km); auto.
  - intros Q. apply HF' in Q. destruct Q; [contradiction|lia].
  - intros Q. cbn [add_kid fr_kids]. rewrite map_app. cbn [map fst]. rewrite app_nil_r. apply H8, Q.
  - cbn [add_kid fr_kids]. rewrite map_app. cbn [map fst]. apply sorted_snoc; [exact H9|]. eapply fits_names. exact Fi.
  - cbn [add_kid fr_name]. eapply levels_frame; [exact HF|exact H14| |]; auto. intros j Q. apply HF' in Q. destruct Q; [auto|right; lia].
Qed.

Lemma wok_finish_pending (F : N -> Prop) w f frs c p up d : (forall j, F j -> j < f_next w) -> pending F w f frs c (p :: up) -> x_fd p = Some d ->
  wok (finalize_child cfg flags (Some d) c (fr_name f) (fr_entry f)) w (fun _ w1 => exists (F' : N -> Prop) q frs', frs = q :: frs' /\ (forall j, F' j -> j < f_next w1) /\
    levels F' w1 None [] (f_next w1) (p :: up) (add_kid q (fr_name f) (tree_of f) :: frs')).
Proof.
  intros HF (_ & H2 & H3 & H4 & H5 & H6) Hp. destruct H6 as [(Sk & -> & HL) | (Sk & t & i & bd & a & P1 & P2 & P3 & P4 & P5 & P6 & P7 & P8 & P9 & HL)].
  - assert (E : finalize_child cfg flags (Some d) xnode0 (fr_name f) (fr_entry f) = Ret (Ok tt)).
    { unfold finalize_child. fold (mode_of f). unfold skip in Sk. destruct (S_ISLNK (mode_of f) && _)%bool; [reflexivity|]. destruct (S_ISFIFO (mode_of f) && _)%bool; [reflexivity|].
      destruct (S_ISSOCK (mode_of f) && _)%bool; [reflexivity|]. cbn [orb] in Sk. rewrite Sk. reflexivity. }
    rewrite E. apply wok_ret. destruct frs as [|q frs']; [inversion HL|]. exists F, q, frs'. split; [reflexivity|]. split; [exact HF|].
    inversion HL as [|? ? ? ? ? ? ? i0 a0 es0 km0 L1 L2 L3 L4 L5 L6 L7 L8 L9 L10 L11 L12 L13 L14]; subst. assert (i0 = d) by congruence. subst i0. cbn [app] in L6.
    eapply levels_kid with (km := km0); [left; exact HL|exact Hp|exact H3|auto|auto|auto|exact L5|exact L6|].
    apply kids_snoc_skip; [exact L7|]. intros Q. apply (restored_skip flags f H4) in Q. unfold mode_of in Sk. congruence.
  - destruct frs as [|q frs']; [inversion HL|].
    inversion HL as [|? ? ? ? ? ? ? i0 a0 es0 km0 L1 L2 L3 L4 L5 L6 L7 L8 L9 L10 L11 L12 L13 L14]; subst. assert (i0 = d) by congruence. subst i0. cbn [app] in L6.
    assert (Gt : get t es0 = Some i) by (apply (same_get _ _ _ _ L6); left; reflexivity).
    assert (Nt : ~ In t (map fst km0)).
    { intros Q. apply in_map_iff in Q. destruct Q as ([t' j] & Et & Q). cbn in Et. subst t'. assert (G2 : get t es0 = Some j) by (apply (same_get _ _ _ _ L6); right; exact Q).
      assert (j = i) by congruence. subst j. destruct (kids_in _ _ _ _ _ _ L7 _ _ Q) as (x & _ & _ & Hx). apply P5, (hold_F _ _ _ _ Hx). }
    pose proof (fresh_name _ _ _ _ _ _ L7 H3) as No.
    assert (Go : get (fr_name f) es0 = None). { apply (same_none _ _ _ L6). cbn [map fst In]. intros [Q | Q]; [congruence|contradiction]. }
    assert (Hne : d <> i) by lia.
    assert (Ld : leads_to w (Some d) c (opt_or (x_tmp c) (fr_name f)) i).
    { rewrite P1. cbn [opt_or]. destruct P8 as [(_ & P8 & _) | (_ & P8)]; [left; exact P8|right]. split; [exact P8|]. exists d, a0, es0. auto. }
    eapply wok_weaken; [apply (wok_finalize fe cfg flags Hfe Hshift Hperm Hsel (Some d) c (fr_name f) (fr_entry f) w i a bd Ld P6 H4 P7 Sk)|].
    + intros tg ->. split; [eauto|]. destruct P8 as [(_ & _ & P8) | (_ & P8)]; [discriminate|exact P8].
    + intros es ->. cbn in P7. unfold mode_of in H5. congruence.
    + intros t' Q. rewrite P1 in Q. injection Q as <-. exists d, a0, es0. auto 10.
    + cbn beta. intros _ w1 (a1 & (A1 & A2) & _ & A3). destruct (A3 t d a0 es0 P1 eq_refl L5) as (ad1 & wm & (M1 & M2 & M3) & (N1 & N2 & N3)).
      assert (Hi1 : f_ino w1 i = Some (mkInode a1 bd)) by (rewrite N2 by congruence; exact M3).
      assert (Ho : forall j, j <> i -> j <> d -> f_ino w1 j = f_ino w j) by (intros j Q1 Q2; rewrite N2 by exact Q2; apply M2, Q1).
      set (F' := fun j => F j \/ j = i). exists F', q, frs'. split; [reflexivity|]. split; [intros j [Q | ->]; rewrite N1, M1; [apply HF, Q|exact P4]|].
      assert (Hold : hold F' w1 i (tree_of f)).
      { eapply (shape_tree f H4 H5 i bd a1); auto; [| right; reflexivity |].
        - intros Q. destruct P8 as [(_ & _ & P8) | (P8 & _)]; [exact P8|congruence].
        - intros data ->. destruct P8 as [(_ & P8 & _) | (P8 & _)]; [destruct (A2 P8) as [B1 B2]; split; [exact B1|exact (B2 _ eq_refl)]|]. cbn in P7. unfold mode_of in P8. congruence. }
      eapply levels_lim; [eapply levels_kid with (F := F) (w := w) (d := d) (km := km0 ++ [(fr_name f, i)]); [right; eexists; exact HL|exact Hp|exact H3|left; auto| | |exact N3| |]|rewrite N1, M1; lia].
      * intros j [Q | ->]; [auto|right; lia].
      * intros j [Q | Q]; apply Ho; try lia; intros ->; contradiction.
      * eapply same_eq; [apply (same_move _ _ _ _ _ L6 Nt No)|]. intros x. rewrite in_app_iff. cbn [In]. tauto.
      * apply kids_snoc; [|apply (restored_skip flags f H4); exact Sk|exact Hold].
        eapply (proj2 (hold_frame cfg flags F w F' w1 (fun j Q => or_introl Q) _)). exact L7. Unshelve. intros j Q. apply Ho; intros ->; contradiction.
Qed.

Lemma wok_finish_dir (F : N -> Prop) w f frs c up : (forall j, F j -> j < f_next w) -> levels F w None [] (f_next w) (c :: up) (f :: frs) ->
  wok (finalize_child cfg flags (match up with p :: _ => x_fd p | [] => None end) c (fr_name f) (fr_entry f)) w (fun _ w1 => exists F' : N -> Prop, (forall j, F' j -> j < f_next w1) /\
    match up, frs with
    | [], [] => hold F' w1 b (tree_of f)
    | _ :: _, q :: frs' => levels F' w1 None [] (f_next w1) up (add_kid q (fr_name f) (tree_of f) :: frs')
    | _, _ => False
    end).
Proof.
  intros HF HL. inversion HL as [|? ? ? ? ? ? ? i a es km L1 L2 L3 L4 L5 L6 L7 L8 L9 L10 L11 L12 L13 L14]; subst. cbn [app] in L6.
  set (dirfd := match up with p :: _ => x_fd p | [] => None end).
  assert (Ld : leads_to w dirfd c (opt_or (x_tmp c) (fr_name f)) i) by (left; exact L1).
  assert (Sk : skip flags (m_mode (dt_meta (fr_entry f))) = false) by (apply skip_plain; rewrite L11; reflexivity).
  eapply wok_weaken; [apply (wok_finalize fe cfg flags Hfe Hshift Hperm Hsel dirfd c (fr_name f) (fr_entry f) w i a (BDir es) Ld L5 L10 L11 Sk)|].
  - discriminate.
  - intros es' Q Del. injection Q as <-. rewrite (L8 Del), app_nil_r. split; [exact L9|]. intros n Q. apply (kids_names _ _ _ _ _ _ L7). apply in_map_iff in Q. destruct Q as (x & <- & Q). apply in_map, L6, Q.
  - intros t Q. congruence.
  - cbn beta. intros _ w1 (a1 & (A1 & A2) & A3 & _). specialize (A3 L2). destruct A3 as (N1 & N2 & N3). destruct (A2 L1) as [A4 _].
    set (F' := fun j => F j \/ j = i). exists F'. split; [intros j [Q | ->]; rewrite N1; [apply HF, Q|exact L3]|].
    assert (Hold : hold F' w1 i (tree_of f)).
    { unfold tree_of. assert (R : S_ISREG (m_mode (dt_meta (fr_entry f))) = false) by (apply (type_excl _ S_IFDIR S_IFREG); [discriminate|exact L11]). rewrite R, L11.
      eapply hold_dir with (km := km); [right; reflexivity|exact N3|exact A1|exact A4|exact L6|].
      eapply (proj2 (hold_frame cfg flags F w F' w1 (fun j Q => or_introl Q) _)). exact L7. Unshelve. intros j Q. apply N2. intros ->. contradiction. }
    destruct up as [|p up]; [inversion L14; subst; specialize (L12 eq_refl); subst i; exact Hold|].
    destruct frs as [|q frs']; [inversion L14|].
    inversion L14 as [|? ? ? ? ? ? ? d a2 es2 km2 K1 K2 K3 K4 K5 K6 K7 K8 K9 K10 K11 K12 K13 K14]; subst. destruct (L13 ltac:(discriminate)) as [Nm Fi].
    eapply levels_lim; [eapply levels_kid with (F := F) (w := w) (d := d) (km := km2 ++ [(fr_name f, i)]); [right; eexists; exact L14|exact K1|exact Fi|left; auto| | | | |]|rewrite N1; lia].
    + intros j [Q | ->]; [auto|right; lia].
    + intros j [Q | Q]; apply N2; try lia; intros ->; contradiction.
    + rewrite N2 by lia. exact K5.
    + eapply same_eq; [exact K6|]. intros x. rewrite !in_app_iff. cbn [In]. tauto.
    + apply kids_snoc; [|apply (restored_skip flags f L10); exact Sk|exact Hold].
      eapply (proj2 (hold_frame cfg flags F w F' w1 (fun j Q => or_introl Q) _)). exact K7. Unshelve. intros j Q. apply N2. intros ->. contradiction.
Qed.
End Work.
