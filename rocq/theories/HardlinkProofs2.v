(** Hard links to seeds: ca_decoder_try_hardlink. *)
From Verif Require Import Base FeatureFlags ArchiveBase Decoder DecoderSpec Encoder Fs Extract ExtractSpec ExtractProofs1 ExtractProofs2 ExtractProofs3 ExtractedProofs1 ExtractedProofs2 ExtractProofs6 Hardlink HardlinkSpec HardlinkProofs.
Local Open Scope N_scope.

Lemma lor_zero x y : (N.lor x y =? 0) = ((x =? 0) && (y =? 0))%bool.
Proof. apply eq_true_iff_eq. rewrite andb_true_iff, !N.eqb_eq. apply N.lor_eq_0_iff. Qed.
Lemma has_bor_split f a b c d : has f (bor [a; b; c; d]) = (has f a || (has f b || (has f c || has f d)))%bool.
Proof. unfold has, bor. cbn [fold_right]. rewrite !N.land_lor_distr_r, N.land_0_r, N.lor_0_r, !lor_zero, !negb_andb. reflexivity. Qed.
Lemma has_bor2 f a b : has f (bor [a; b]) = (has f a || has f b)%bool.
Proof. unfold has, bor. cbn [fold_right]. rewrite !N.land_lor_distr_r, N.land_0_r, N.lor_0_r, !lor_zero, !negb_andb. reflexivity. Qed.
Lemma coarser x y g h : x / g = y / g -> g <> 0 -> h <> 0 -> x / (g * h) = y / (g * h).
Proof. intros E G H. rewrite <- !N.div_div by assumption. rewrite E. reflexivity. Qed.

Lemma superficial_recorded ff e st : superficial ff e st = Ok true -> dt_size e <> None ->
  exists size, dt_size e = Some size /\ as_recorded ff (dt_meta e) size st.
Proof.
  unfold superficial. intros H Hs. destruct (i_body st) as [data| | | | |] eqn:B; try discriminate. destruct (dt_size e) as [size|]; [|congruence]. cbn [opt_or] in H.
  destruct (N.eqb_spec (len data) size) as [L|]; [cbn [negb] in H|discriminate].
  destruct (N.land (N.lxor (a_perm (i_attrs st)) (m_mode (dt_meta e))) (mode_mask ff) =? 0) eqn:P; [cbn [negb] in H|discriminate]. apply N.eqb_eq in P.
  assert (PB : forall k, N.testbit (mode_mask ff) k = true -> N.testbit (a_perm (i_attrs st)) k = N.testbit (m_mode (dt_meta e)) k).
  { intros k K. apply (f_equal (fun z => N.testbit z k)) in P. rewrite N.land_spec, N.lxor_spec, K, N.bits_0, andb_true_r in P. destruct (N.testbit (a_perm _) k), (N.testbit (m_mode _) k); cbn in P; congruence. }
  destruct (has ff (bor [WITH_16BIT_UIDS; WITH_32BIT_UIDS]) && (negb (a_uid (i_attrs st) =? m_uid (dt_meta e)) || negb (a_gid (i_attrs st) =? m_gid (dt_meta e))))%bool eqn:O; [discriminate|].
  exists size. split; [reflexivity|]. unfold as_recorded.
  split; [exists data; auto|]. split.
  { intros W k K. apply PB. unfold mode_mask. rewrite W. change 0xFFF with (N.ones 12). apply N.ones_spec_low, K. }
  split.
  { intros W. apply PB. unfold mode_mask. rewrite W. destruct (has ff WITH_PERMISSIONS); reflexivity. }
  split.
  { intros W. rewrite has_bor2 in O. assert (E : (has ff WITH_16BIT_UIDS || has ff WITH_32BIT_UIDS)%bool = true) by (apply orb_true_iff; exact W). rewrite E in O. cbn [andb] in O.
    apply orb_false_iff in O. destruct O as [O1 O2]. apply negb_false_iff, N.eqb_eq in O1. apply negb_false_iff, N.eqb_eq in O2. auto. }
  clear P PB O. rewrite has_bor_split in H. unfold time_granularity_nsec in H.
  set (x := a_mtime (i_attrs st)) in *. set (y := m_mtime (dt_meta e)) in *.
  destruct (has ff WITH_NSEC_TIME) eqn:T1, (has ff WITH_USEC_TIME) eqn:T2, (has ff WITH_SEC_TIME) eqn:T3, (has ff WITH_2SEC_TIME) eqn:T4; cbn [orb bind] in H;
    try (repeat split; discriminate);
    (destruct (negb (N.ldiff ff FEATURE_FLAGS_MAX =? 0)); [discriminate|]); cbn [bind] in H; injection H as H; apply N.eqb_eq in H;
    rewrite ?N.div_1_r in H; repeat split; try discriminate; intros _; try exact H; try (rewrite H; reflexivity);
    try (apply (coarser x y 1000 1000000) in H; [exact H|discriminate|discriminate]);
    try (apply (coarser x y 1000 2000000) in H; [exact H|discriminate|discriminate]);
    try (apply (coarser x y 1000000000 2) in H; [exact H|discriminate|discriminate]).
Qed.

Section Try.
Variables (fe : fenv) (cfg : xcfg) (enabled : bool) (root : N) (path : list N).
Variables (x : xdec) (n : dnode) (ns : list dnode) (c p : xnode) (up : list xnode) (e : dentry) (dir : N) (tmp : list N).
Variables (w0 : fs) (f : list N -> option N).
Notation undo := (c_undo cfg).
Notation name := (dn_name n).
Hypothesis Hnodes : d_nodes (x_dec x) = n :: ns.
Hypothesis Hx : x_nodes x = c :: p :: up.
Hypothesis He : dn_entry n = Some e.
Hypothesis Hsize : dt_size e <> None.
Hypothesis Hdir : x_fd p = Some dir.
Hypothesis Htmp : x_tmp c = Some tmp.
Hypothesis Hname : is_component name.
Hypothesis Htc : is_component tmp.
Hypothesis Htt : temporary tmp.
Hypothesis Hne : tmp <> name.
Hypothesis Hf : lists w0 dir f.
Hypothesis Hnd : nodir w0 f name.
Notation at_ := (at_ cfg w0 dir).

Definition linked_as (i : N) (g : list N -> option N) : Prop :=
  leads fe w0 root path i /\ g name = Some i /\ (forall m, m <> name -> ~ temporary m -> g m = f m).
Definition state_ok (w : fs) : Prop := exists g, at_ g w /\ ((g name = f name /\ (forall m, m <> name -> ~ temporary m -> g m = f m)) \/ exists i, linked_as i g).
Definition result_ok (r : res (bool * xdec)) (w : fs) : Prop :=
  match r with
  | Ok (true, x') =>
      (exists i nd size g, leads fe w0 root path i /\ f_ino w0 i = Some nd /\ dt_size e = Some size /\ as_recorded (d_ff (x_dec x)) (dt_meta e) size nd /\
        at_ g w /\ g name = Some i /\ g tmp = None /\
        (forall m, m <> name -> m <> tmp -> g m = f m \/ (f name = Some i /\ f m = None /\ temporary m))) /\
      x' = mkXdec (x_dec x) (mkXnode None None (x_dirents c) :: p :: up)
  | Ok (false, x') => w = w0 /\ x' = x
  | _ => True
  end.

Lemma start_at : at_ f w0.
Proof. split; [exact Hf|apply unharmed_refl]. Qed.
Lemma start_ok : state_ok w0.
Proof. exists f. split; [apply start_at|]. left. auto. Qed.

(** The end: the temporary file goes. *)
Lemma fini_ok i nd size g w : leads fe w0 root path i -> f_ino w0 i = Some nd -> dt_size e = Some size -> as_recorded (d_ff (x_dec x)) (dt_meta e) size nd ->
  at_ g w -> g name = Some i -> (forall m, m <> name -> g m = f m \/ (f name = Some i /\ f m = None /\ temporary m)) ->
  hok fe (match x_tmp c with
          | None => HRet Abort
          | Some t => doh! _ <- lift (sys (CUnlink dir t)) ;; HRet (Ok (true, mkXdec (x_dec x) (mkXnode None None (x_dirents c) :: p :: up)))
          end) w state_ok result_ok.
Proof.
  intros L Fi Es R K G O. rewrite Htmp.
  assert (LA : forall h, at_ h w -> True) by auto. clear LA.
  cbn. intros t y w1 _ Q.
  assert (B : forall m, m <> name -> ~ temporary m -> g m = f m) by (intros m M T; destruct (O m M) as [Z | (_ & _ & Z)]; [exact Z|contradiction]).
  destruct (unlink_result fe undo _ _ _ _ _ _ _ Htc (proj1 K) Q) as [(-> & er & ->) | (-> & L1 & U)].
  - split; [|exact Logic.I]. exists g. split; [exact K|]. right. exists i. split; [exact L|]. auto.
  - assert (K1 : at_ (upd g tmp None) w1) by (split; [exact L1|eapply unharmed_trans; [apply K|exact U]]).
    assert (G1 : upd g tmp None name = Some i) by (rewrite upd_other; [exact G|congruence]).
    split.
    + exists (upd g tmp None). split; [exact K1|]. right. exists i. split; [exact L|]. split; [exact G1|]. intros m M T. rewrite upd_other; [auto|]. intros ->. apply T, Htt.
    + split; [|reflexivity]. exists i, nd, size, (upd g tmp None). repeat (split; [assumption|]). split; [apply upd_same|]. intros m M T. rewrite upd_other by exact T. auto.
Qed.

Theorem try_ok : hok fe (try_hardlink cfg enabled root path x) w0 state_ok result_ok.
Proof.
  unfold try_hardlink. destruct (d_state (x_dec x)); try exact Logic.I. destruct enabled; cbn [negb]; [|split; reflexivity].
  rewrite Hnodes, Hx, Hdir, He. destruct (negb (S_ISREG (m_mode (dt_meta e)))); [exact Logic.I|].
  cbn [hok]. intros t st w1 _ R. destruct (stat_result fe w0 root path t st w1) as [-> R2]; [eauto|]. clear R. split; [apply start_ok|].
  destruct st as [|k|nd|l|l|b|er]; try exact Logic.I; [|destruct er; try exact Logic.I; split; reflexivity].
  destruct (superficial (d_ff (x_dec x)) e nd) as [[|]| | |] eqn:Su; try exact Logic.I; [|split; reflexivity].
  destruct (superficial_recorded _ _ _ Su Hsize) as (size & Es & Rec).
  set (fini := match x_tmp c with None => _ | Some _ => _ end).
  assert (FI : forall i g w, leads fe w0 root path i -> len path <> 0 -> at_ g w -> g name = Some i ->
     (forall m, m <> name -> g m = f m \/ (f name = Some i /\ f m = None /\ temporary m)) -> hok fe fini w state_ok result_ok).
  { intros i g w L Z K G O. destruct (R2 nd eq_refl Z) as (i' & L' & Fi'). rewrite (leads_fun _ _ _ _ _ _ L' L) in Fi'. exact (fini_ok i nd size g w L Fi' Es Rec K G O). }
  clearbody fini. clear R2.
  apply hok_bind with (Q1 := fun (r : res ret) w1 => match r with
    | Ok _ => exists i, leads fe w0 root path i /\ len path <> 0 /\ at_ (upd f name (Some i)) w1
    | _ => w1 = w0 end).
  { cbn. intros t0 y w1 R. destruct (link_result fe undo _ _ _ _ _ _ _ _ _ Hname Hf R) as [(-> & er & ->) | (i & -> & Fn & L & _ & Z & L1 & U)].
    - split; [apply start_ok|reflexivity].
    - assert (K : at_ (upd f name (Some i)) w1) by (split; assumption). split.
      + exists (upd f name (Some i)). split; [exact K|]. right. exists i. split; [exact L|]. split; [apply upd_same|]. intros m M _. apply upd_other, M.
      + exists i. auto. }
  intros r w1 H. destruct r as [r|er| |]; [destruct H as (i & L & Z & K)| |exact Logic.I..].
  { eapply FI; eauto; [apply upd_same|]. intros m M. left. apply upd_other, M. }
  subst w1. assert (NL : forall er, result_ok (if no_link er then Ok (false, x) else Err er) w0) by (intros er'; destruct (no_link er'); [split; reflexivity|exact Logic.I]).
  assert (SLOW : hok fe (doh! t <- lift (tempfn_random name) ;;
    hbind (hlink root path dir t) (fun r =>
    match r with
    | Ok _ =>
        hbind (lift (install_file cfg dir t name)) (fun r =>
        match r with
        | Ok _ => fini
        | Err e => hbind (lift (sys (CUnlink dir t))) (fun _ => HRet (Err e))
        | Abort => HRet Abort | UB => HRet UB
        end)
    | Err e => if no_link e then HRet (Ok (false, x)) else HRet (Err e)
    | Abort => HRet Abort | UB => HRet UB
    end)) w0 state_ok result_ok).
  { apply hok_bind with (Q1 := fun (r : res (list N)) w1 => w1 = w0 /\ match r with Ok s => is_component s /\ temporary s /\ s <> name | _ => True end).
    { apply hok_lift. unfold tempfn_random. destruct (_ || _)%bool; [split; [reflexivity|exact Logic.I]|]. cbn. intros t0 y w1 _ R. pose proof (idle_result fe _ _ _ _ _ (Logic.I : idle CRandom) R). subst w1.
      split; [apply start_ok|]. destruct y; cbn; try (split; [reflexivity|exact Logic.I]). split; [reflexivity|]. destruct (temp_name_ok name n0 Hname) as [A B]. split; [exact A|]. split; [exact B|]. apply temp_ne. }
    intros r w1 [-> H]. destruct r as [s| | |]; try exact Logic.I. destruct H as (Sc & St & Sn).
    apply hok_bind with (Q1 := fun (r : res ret) w1 => match r with
      | Ok _ => exists i, leads fe w0 root path i /\ plainly w0 i /\ len path <> 0 /\ f s = None /\ at_ (upd f s (Some i)) w1
      | _ => w1 = w0 end).
    { cbn. intros t0 y w1 R. destruct (link_result fe undo _ _ _ _ _ _ _ _ _ Sc Hf R) as [(-> & er0 & ->) | (i & -> & Fn & L & Pi & Z & L1 & U)].
      - split; [apply start_ok|reflexivity].
      - assert (K : at_ (upd f s (Some i)) w1) by (split; assumption). split.
        + exists (upd f s (Some i)). split; [exact K|]. left. split; [apply upd_other; congruence|]. intros m M T. apply upd_other. intros ->. contradiction.
        + exists i. auto. }
    intros r w1 H. destruct r as [r|er0| |]; [| |exact Logic.I..].
    2: { subst w1. specialize (NL er0). destruct (no_link er0); exact NL. }
    destruct H as (i & L & Pi & Z & Fs & K).
    assert (RN : forall g, renamed (upd f s (Some i)) s name i g -> g name = Some i /\ forall m, m <> name -> g m = f m \/ (f name = Some i /\ f m = None /\ temporary m)).
    { intros g [(E & ->) | (E & ->)].
      - split; [exact E|]. intros m M. unfold upd. destruct (beq m s) eqn:Q; [|left; reflexivity]. apply beq_eq in Q. subst m. right. rewrite upd_other in E by congruence. auto.
      - split; [apply upd_same|]. intros m M. rewrite (upd_other _ _ _ _ M). left. unfold upd. destruct (beq m s) eqn:Q; [|reflexivity]. apply beq_eq in Q. subst m. auto. }
    assert (RS : forall g w, renamed (upd f s (Some i)) s name i g -> at_ g w -> state_ok w).
    { intros g w R K1. destruct (RN _ R) as [G O]. exists g. split; [exact K1|]. right. exists i. split; [exact L|]. split; [exact G|]. intros m M T. destruct (O m M) as [Y | (_ & _ & Y)]; [exact Y|contradiction]. }
    assert (US : forall w, at_ (upd f s (Some i)) w -> state_ok w).
    { intros w K1. exists (upd f s (Some i)). split; [exact K1|]. left. split; [apply upd_other; congruence|]. intros m M T. apply upd_other. intros ->. contradiction. }
    eapply hok_bind.
    { apply hok_lift. apply (okp_install fe cfg w0 dir (upd f s (Some i)) w1 s name i state_ok Sc Hname Sn (upd_same _ _ _) Pi); [|exact K|exact US|exact RS].
      intros j Hj. rewrite upd_other in Hj by congruence. apply Hnd, Hj. }
    cbn beta. clear w1 K. intros r0 w1 H. destruct r0 as [u|er0| |]; [| |exact Logic.I..].
    - destruct H as (g & R & K). destruct (RN _ R) as [G O]. eapply FI; eauto.
    - cbn. intros t0 y w2 _ R. split; [|destruct y; exact Logic.I]. destruct (unlink_result fe undo _ _ _ _ _ _ _ Sc (proj1 H) R) as [(-> & er1 & ->) | (-> & L1 & U)]; [apply US, H|].
      exists (upd (upd f s (Some i)) s None). split; [split; [exact L1|eapply unharmed_trans; [apply H|exact U]]|]. left. split; [rewrite !upd_other by congruence; reflexivity|].
      intros m M T. assert (m <> s) by (intros ->; contradiction). rewrite !upd_other by assumption. reflexivity. }
  specialize (NL er). destruct er; try exact SLOW; exact NL.
Qed.
End Try.
