(** Seeking, part 5: the stages of a seek. *)
From Coq Require Import Permutation.
From Verif Require Import Base ReallocBufferProofs FeatureFlags ArchiveBase Bst Decoder DecoderSpec DecoderProofs DecoderProofs2 DecoderProofs3 DecoderProofs4 DecoderProofs5 Encoder EncoderProofs RoundTrip1 RoundTrip2 RoundTrip3 RoundTrip4 Seek SeekSpec SeekProofs1 SeekProofs2 SeekProofs3 SeekProofs4.
Local Open Scope N_scope.
Local Arguments fld : simpl never.
Local Arguments body : simpl never.

Lemma mode_known ff n t : mode_ok n t -> dec_tree ff t -> node_mode n <> MODE_NONE ->
  S_ISDIR (node_mode n) = is_dir t.
Proof.
  intros [E | (E & [M | [M1 M2]])] D H; unfold node_mode in *; rewrite E in *.
  - inversion D as [m d F M|m s F M|m x y F M|m F M|m ents F M]; subst; cbn [entry_of dt_meta is_dir];
      unfold S_ISDIR, S_ISREG, S_ISLNK, S_ISBLK, S_ISCHR, S_ISFIFO, S_ISSOCK in *;
      try (rewrite (is_type_inj _ _ _ M); reflexivity); apply orb_true_iff in M; destruct M as [M | M]; rewrite (is_type_inj _ _ _ M); reflexivity.
  - congruence.
  - congruence.
Qed.
Lemma dir_not_none m : S_ISDIR m = true -> m <> MODE_NONE.
Proof. intros H ->. discriminate. Qed.


Lemma pf_pre w m : m <= len w -> parse_filename w <> FReq ->
  parse_filename (takeN m w) = FReq /\ m < len w \/ parse_filename (takeN m w) = parse_filename w.
Proof.
  intros Hm H. destruct (parse_filename (takeN m w)) eqn:E.
  - left. split; [reflexivity|]. destruct (N.eq_dec m (len w)) as [-> | Z]; [|lia]. rewrite takeN_all in E by lia. congruence.
  - right. rewrite <- E. rewrite <- (takeN_dropN m w) at 2. symmetry. apply parse_filename_ext. congruence.
  - right. rewrite <- E. rewrite <- (takeN_dropN m w) at 2. symmetry. apply parse_filename_ext. congruence.
  - right. rewrite <- E. rewrite <- (takeN_dropN m w) at 2. symmetry. apply parse_filename_ext. congruence.
Qed.
Lemma type_pre w m t : type_is (takeN m w) t = true -> fld 8 w = t.
Proof.
  unfold type_is. intros H. apply andb_true_iff in H. destruct H as [H1 H2]. apply N.leb_le in H1. apply N.eqb_eq in H2. unfold HDR in H1.
  rewrite <- H2. rewrite <- (takeN_dropN m w) at 1. apply fld_ext. lia.
Qed.

Section Stage.
Variables (env : denv) (ev : eenv) (b : list N) (T : tree) (goal : list (list N)).
Let ff := ev_ff ev.
Let hash := ev_hash ev.
Hypothesis HT : dec_tree ff T.
Hypothesis Hdeep : deep 63 T.
Hypothesis Hlen : len b < UINT64_MAX - 16.
Hypothesis Hhash : forall n, ev_hash ev n < two64.
Hypothesis Hdist : distinct_names T.
Hypothesis Hdir : is_dir T = true.

Definition QQ (r : sret) (s : sdec) (pos : N) : Prop := seek_result env hash b T goal r s pos /\ knows env ev b T s /\ leaves goal r s.
Notation leads := (leads env hash b QQ).
Notation sstep := (sstep env hash).
Notation okseek := (okseek env ev b QQ).
Notation SS := (SS b).

Lemma sstep_filename k f n up x xs B a sub idx off en pos : k = KFilename \/ k = KGoodbye -> S_ISDIR (node_mode n) = true ->
  sstep (SS (SSeek k) f (n :: up) (x :: xs) B a sub idx off en pos) = seeking_filename hash (SS (SSeek k) f (n :: up) (x :: xs) B a sub idx off en pos) k n x xs.
Proof.
  intros Hk Hm. assert (Hn : (node_mode n =? MODE_NONE) = false) by (apply N.eqb_neq, dir_not_none, Hm).
  unfold Seek.sstep, SeekProofs4.SS. cbn [s_st s_d d_nodes s_x]. change (advance_buffer ?d) with (Ok d). cbn [bind]. rewrite Hn, Hm. cbn [negb].
  destruct Hk as [-> | ->]; reflexivity.
Qed.
Lemma sstep_tail f n up x xs B a sub idx off en pos : S_ISDIR (node_mode n) = true ->
  sstep (SS (SSeek KTail) f (n :: up) (x :: xs) B a sub idx off en pos) = seeking_tail hash (SS (SSeek KTail) f (n :: up) (x :: xs) B a sub idx off en pos) n x xs.
Proof.
  intros Hm. assert (Hn : (node_mode n =? MODE_NONE) = false) by (apply N.eqb_neq, dir_not_none, Hm).
  unfold Seek.sstep, SeekProofs4.SS. cbn [s_st s_d d_nodes s_x]. change (advance_buffer ?d) with (Ok d). cbn [bind]. rewrite Hn, Hm. reflexivity.
Qed.
Lemma sstep_entered f n up x xs B a sub idx off en pos :
  sstep (SS SEntered f (n :: up) (x :: xs) B a sub idx off en pos) = seek_entry env hash (SS SEntered f (n :: up) (x :: xs) B a sub idx off en pos) n up x xs.
Proof. reflexivity. Qed.

Lemma sstep_adv s st d : s_st s = st -> st <> SNone -> advance_buffer (s_d s) = Ok d -> advance_buffer d = Ok d -> d_nodes d = d_nodes (s_d s) ->
  sstep s = sstep (with_d s d).
Proof.
  intros E1 E2 A1 A2 A3. unfold Seek.sstep. cbn [with_d s_st s_d s_x]. rewrite A3, A1, A2. rewrite E1. destruct st; congruence || reflexivity.
Qed.

(** A decoder about to seek. *)
Record sk (s : sdec) (n : dnode) (up : list dnode) (x : ext) (xs : list ext) (sub : list N) : Prop := mkSk {
  sk_nodes : d_nodes (s_d s) = n :: up; sk_x : s_x s = x :: xs; sk_stack : stack_ok ev b T (n :: up) (x :: xs); sk_root : root_ok b (n :: up) (x :: xs);
  sk_sub : s_sub s = Some sub; sk_goal : path_of (n :: up) ++ names_of sub = goal; sk_sib : s_sib s = false; sk_pay : s_pay s = UINT64_MAX;
  sk_ff : ff_ok env ff (d_ff (s_d s)); sk_down : s_down s = [];
  sk_use : uses up xs; sk_low : up = [] -> usable n x }.

Lemma sk_knows s n up x xs sub : sk s n up x xs sub -> knows env ev b T s.
Proof. intros K. destruct K. constructor; congruence || (rewrite sk_nodes0, sk_x0; assumption) || assumption. Qed.

(** Nothing there. *)
Lemma no_entry p t c cs : at_path T p t -> (forall m ents t', t = TDir m ents -> ~ In (c, t') ents) -> forall t', ~ at_path T (p ++ c :: cs) t'.
Proof.
  intros A H t' C. apply at_app in C. destruct C as (u & U1 & U2). rewrite (at_unique _ _ _ _ Hdist A U1) in *. inversion U2; subst. eapply H; [reflexivity|eassumption].
Qed.
Lemma nowhere_ok s n up x xs sub : sk s n up x xs sub -> usable n x -> (forall t', ~ at_path T goal t') -> do_seek hash s = Ok (false, nowhere s) -> okseek s.
Proof.
  intros K U H E. exists false, (nowhere s). split; [exact E|]. split; [reflexivity|]. split; [reflexivity|].
  split; [cbn; rewrite (sk_nodes _ _ _ _ _ _ K); discriminate|]. split; [cbn; rewrite (sk_x _ _ _ _ _ _ K); discriminate|].
  intros pos. split; [right; auto|]. pose proof (sk_knows _ _ _ _ _ _ K) as [K1 K2 K3 K4]. split; [constructor; assumption|].
  destruct K. constructor; cbn [nowhere senter s_d enter d_nodes s_x]; rewrite ?sk_nodes0, ?sk_x0; cbn [tl uses]; auto. discriminate.
Qed.

Lemma depth_ok n up t : at_path T (path_of (n :: up)) t -> exists k, deep k t /\ len (n :: up) + N.of_nat k = NODES_MAX.
Proof.
  intros A. destruct (at_deep _ _ _ A _ Hdeep) as (k & E & D). exists k. split; [exact D|]. unfold path_of in E. rewrite rev_length, map_length in E.
  assert (L : length (n :: up) = S (length (removelast (n :: up)))).
  { rewrite (app_removelast_last (l := n :: up) n) at 1 by discriminate. rewrite app_length. cbn. lia. }
  unfold len, NODES_MAX. rewrite L. lia.
Qed.

(** ** The place itself *)
Lemma stage_here s n up x xs sub : sk s n up x xs sub -> names_of sub = [] -> okseek s.
Proof.
  intros K N0. pose proof (sk_knows _ _ _ _ _ _ K) as KN. destruct K. destruct sk_stack0 as [(t & pre & bt & rest & G) SO].
  assert (Lb : len b = len pre + len bt + len rest) by (rewrite (g_b _ _ _ _ _ _ _ _ _ _ G) at 1; rewrite !len_app; lia).
  assert (Go : dn_entry_offset n = len pre) by apply G.
  destruct (get_component sub) as [[c|] q] eqn:C; [apply component_some in C; destruct C as [C _]; congruence|].
  exists true, (prep s KEntry (dn_entry_offset n) (x_end x)). split.
  { unfold do_seek. rewrite sk_nodes0, sk_x0, sk_sub0, C, sk_sib0, sk_pay0. cbn [fst negb N.eqb].
    destruct (N.eqb_spec (dn_entry_offset n) UINT64_MAX) as [E | _]; [exfalso; unfold UINT64_MAX in *; lia|]. reflexivity. }
  intros pos.
  eapply leads_seek with (off := dn_entry_offset n).
  { unfold Seek.sstep. cbn [prep senter s_st s_d s_x]. unfold enter. cbn [d_nodes]. rewrite sk_nodes0, sk_x0. change (advance_buffer ?d) with (Ok d). cbn [bind].
    unfold with_d, prep, senter. cbn [s_d s_st s_x s_down s_sub s_sib s_idx s_off s_end s_pay]. reflexivity. }
  { unfold apply_seek. cbn [get_seek_offset s_st s_off]. destruct (N.eqb_spec (dn_entry_offset n) UINT64_MAX) as [E | _]; [exfalso; unfold UINT64_MAX in *; lia|]. reflexivity. }
  { lia. }
  unfold apply_seek, enter. cbn [s_d s_st s_x s_down s_sub s_sib s_idx s_off s_end s_pay d_ff d_nodes d_bound].
  eapply leads_end.
  { unfold Seek.sstep. cbn [s_st s_d s_x d_nodes]. rewrite ?sk_nodes0, ?sk_x0. change (advance_buffer ?d) with (Ok d). cbn [bind]. reflexivity. }
  unfold senter_d, with_d, reset_seek, set_bound, enter. cbn [s_d s_st s_x s_down s_sub s_sib s_idx s_off s_end s_pay d_ff d_nodes d_bound d_buf d_eof d_aoff d_poff].
  split.
  - left. split; [reflexivity|]. exists t. assert (A : at_path T goal t) by (rewrite <- sk_goal0, N0, app_nil_r; apply G). split; [exact A|].
    destruct (at_dec _ _ _ _ HT A) as [DT FC]. destruct (depth_ok n up t (g_path _ _ _ _ _ _ _ _ _ _ G)) as (k & D1 & D2).
    eapply found_shows with (n := n) (up := up) (bt := bt) (rest := rest) (k := k) (ev := ev); cbn [s_d s_st d_nodes d_state d_bound d_ff]; try assumption; try reflexivity.
    + split; [apply N.le_0_l|]. cbn [d_step d_aoff d_buf d_eof]. split; [lia|]. rewrite N.sub_diag, takeN_0, dropN_0. split; [reflexivity|]. split; [lia|reflexivity].
    + rewrite <- sk_goal0, N0, app_nil_r. reflexivity.
    + rewrite Go, (g_b _ _ _ _ _ _ _ _ _ _ G). apply dropN_app_exact. reflexivity.
    + apply G.
    + rewrite D2. lia.
    + intros ->. pose proof (g_path _ _ _ _ _ _ _ _ _ _ G) as A0. change (path_of [n]) with (@nil (list N)) in A0. inversion A0; subst. destruct t; try discriminate. eauto.
    + apply G.
  - split.
    + constructor; cbn [s_d s_x s_down d_nodes d_ff]; try assumption; rewrite ?sk_nodes0, ?sk_x0; try assumption. split; [|assumption]. exists t, pre, bt, rest. exact G.
    + constructor; cbn [s_d s_x d_nodes]; rewrite ?sk_nodes0, ?sk_x0; cbn [tl uses]; auto.
      * intros [-> | E]; [|discriminate]. split; [auto|exact I].
      * intros _. rewrite <- sk_goal0, N0, app_nil_r. reflexivity.
Qed.

(** ** A file just entered *)
Definition fresh_ext (e : N) : ext := mkExt e UINT64_MAX None UINT64_MAX.
Lemma dir_ok_fresh t pre bt e : arch ev t bt -> dir_ok ev (fresh_ext e) pre bt t.
Proof.
  intros A. destruct t; try exact I. inversion A as [| | | |m0 ents0 bl ls gb AE G]; subst. destruct G as (tab & G1 & G2).
  exists bl, ls, gb, tab. cbn [fresh_ext x_gboff x_gb]. auto 10.
Qed.

(** What the seek below a node rests on. *)
Definition below (k : nat) : Prop :=
  forall s n up x xs sub, sk s n up x xs sub -> (length (names_of sub) < k)%nat -> s_idx s = 0 -> (names_of sub = [] \/ usable n x) -> okseek s.

Lemma stage_entered k f nm a' n up e xs B sub off en pos t pre bt rest : below k -> (length (names_of sub) < k)%nat ->
  let nc := mkDnode nm a' None MODE_NONE in
  good_at ev b T t pre bt rest (path_of (nc :: n :: up)) nc (fresh_ext e) -> e <> UINT64_MAX -> stack_ok ev b T (n :: up) xs -> root_ok b (n :: up) xs -> uses (n :: up) xs ->
  path_of (nc :: n :: up) ++ names_of sub = goal -> ff_ok env ff f -> a' <= pos <= len b ->
  leads (SS SEntered f (nc :: n :: up) (fresh_ext e :: xs) B a' sub 0 off en pos) pos.
Proof.
  intros HB Hk nc G He SO RO US Hg Hf Hp. pose proof (g_off _ _ _ _ _ _ _ _ _ _ G) as Go. cbn [nc dn_entry_offset] in Go.
  assert (Lb : len b = len pre + len bt + len rest) by (rewrite (g_b _ _ _ _ _ _ _ _ _ _ G) at 1; rewrite !len_app; lia).
  destruct (at_dec _ _ _ _ HT (g_path _ _ _ _ _ _ _ _ _ _ G)) as [DT FC].
  assert (W : dropN a' b = bt ++ rest) by (rewrite Go, (g_b _ _ _ _ _ _ _ _ _ _ G); apply dropN_app_exact; reflexivity).
  destruct xs as [|x xs]; [contradiction|].
  apply (feed env ev b QQ (fun f => ff_ok env ff f)); [|exact Hf|exact Hp]. clear f Hf pos Hp. intros f pos Hf Hp.
  destruct (tree_entry env ev t bt rest false f (g_arch _ _ _ _ _ _ _ _ _ _ G) DT Hf ltac:(discriminate) (g_next _ _ _ _ _ _ _ _ _ _ G) ltac:(unfold UINT64_MAX in *; lia)) as (eo & PE & Eo & Er).
  rewrite <- W in PE. set (buf := takeN (pos - a') (dropN a' b)).
  assert (HW : dropN a' b = buf ++ dropN (pos - a') (dropN a' b)) by (unfold buf; rewrite takeN_dropN; reflexivity).
  assert (R : at_root (s_d (SS SEntered f (nc :: n :: up) (fresh_ext e :: x :: xs) B a' sub 0 off en pos)) = false).
  { unfold at_root. cbn [SeekProofs4.SS s_d d_nodes]. rewrite !len_cons. apply N.eqb_neq. lia. }
  destruct (parse_entry env false f buf) as [r f'] eqn:PB.
  assert (C : r = RReq \/ r = ROk (entry_of t) eo /\ f' = ff).
  { destruct r; [left; reflexivity|right|right].
    - rewrite HW in PE. rewrite (parse_entry_ext _ _ _ _ _ _ _ PB) in PE by discriminate. discriminate.
    - rewrite HW in PE. rewrite (parse_entry_ext _ _ _ _ _ _ _ PB) in PE by discriminate. injection PE as -> -> ->. auto. }
  destruct C as [-> | [-> ->]].
  - right. split.
    { destruct (N.eq_dec pos (len b)) as [Z | Z]; [|lia]. exfalso. assert (E : buf = dropN a' b) by (unfold buf; apply takeN_all; rewrite len_dropN; lia). rewrite E in PB. congruence. }
    exists f'. split.
    + rewrite HW in PE. destruct (entry_req_ff _ _ _ _ _ _ _ _ PB PE ltac:(discriminate)) as [-> | ->]; [exact Hf|eapply ff_again; exact Hf].
    + rewrite sstep_entered. unfold seek_entry. rewrite R. cbn [SeekProofs4.SS s_d d_ff d_buf]. fold buf. rewrite PB. reflexivity.
  - left. eapply seek_on_leads.
    + rewrite sstep_entered. unfold seek_entry. rewrite R. cbn [SeekProofs4.SS s_d d_ff d_buf]. fold buf. rewrite PB. reflexivity.
    + set (nc' := mkDnode nm a' (Some (entry_of t)) MODE_NONE).
      assert (PN : path_of (nc' :: n :: up) = path_of (nc :: n :: up)) by (apply path_head; reflexivity).
      set (s1 := with_d _ _).
      assert (Main : forall y, x_end y = e -> x_gboff y = UINT64_MAX -> x_gb y = None -> pay_ok y pre bt t ->
        forall s2, s2 = with_x s1 (y :: x :: xs) -> okseek s2).
      { intros y Y1 Y2 Y3 Y4 s2 ->. eapply (HB _ nc' (n :: up) y (x :: xs) sub); [|exact Hk|reflexivity|].
        - constructor; try reflexivity.
          + split; [|exact SO]. exists t, pre, bt, rest. rewrite PN. destruct G. constructor; try assumption.
            * rewrite Y1. exact g_end.
            * left. reflexivity.
            * pose proof (dir_ok_fresh t pre bt e g_arch) as DO. destruct t; try exact I. cbn [dir_ok] in DO |- *. rewrite Y2, Y3. exact DO.
          + apply root_push. exact RO.
          + rewrite PN. exact Hg.
          + cbn [with_x s1 with_d s_d set_nodes set_ff d_ff]. eapply ff_again. exact Hf.
          + exact US.
          + discriminate.
        - right. split; [|rewrite Y1, Y2, Y3; split; [congruence|auto]].
          unfold node_mode. cbn [nc' dn_entry].
          assert (D0 : exists m, m_mode (dt_meta (entry_of t)) = m_mode m /\ dec_file ff m) by (inversion DT; subst; eexists; split; try reflexivity; assumption).
          destruct D0 as (m & -> & D0). eapply not_none. exact D0. }
      destruct (S_ISREG (m_mode (dt_meta (entry_of t)))) eqn:SR.
      * eapply Main; [| | | |reflexivity]; try reflexivity. cbn [fresh_ext x_end x_gboff x_gb].
        assert (RT : exists m data, t = TReg m data).
        { inversion DT as [m data _ M|m s _ M|m x0 y0 _ M|m _ M|m ents _ M]; subst; [eauto|exfalso..]; cbn in SR;
            unfold S_ISREG, S_ISDIR, S_ISLNK, S_ISBLK, S_ISCHR, S_ISFIFO, S_ISSOCK in *;
            try (apply orb_true_iff in M; destruct M as [M | M]); rewrite (is_type_inj _ _ _ M) in SR; discriminate. }
        destruct RT as (m & data & ET). destruct (Er m data ET) as (E1 & q & Q1 & Q2). right. exists m, data, q. split; [exact ET|]. split; [exact Q2|].
        cbn [x_pay SeekProofs4.SS s_d d_aoff].
        unfold add64. rewrite N.mod_small by (unfold two64, UINT64_MAX in *; lia). lia.
      * eapply (Main (fresh_ext e)); try reflexivity. left. reflexivity.
Qed.

(** ** Looking up a name *)
(** The directory whose entries are looked at. *)
Record dirk (t : tree) (pre bt rest : list N) (m : meta) (ents : list (list N * tree)) (bl : list N) (ls : list gitem) (gb : list N) (tab : list gitem) : Prop := mkDirk {
  dk_t : t = TDir m ents; dk_bt : bt = ser_meta ev m ++ bl ++ gb; dk_ents : arch_ents ev ents bl ls; dk_tab : searchable tab ls;
  dk_gb : gb = obj F_GOODBYE (concat (map ser_gitem tab) ++ le64 (len (ser_meta ev m ++ bl)) ++ le64 (40 + 24 * len ls) ++ le64 F_GOODBYE_TAIL_MARKER);
  dk_b : b = pre ++ bt ++ rest; dk_dec : dec_tree ff t }.

Definition name_at (G : N) (it : gitem) : option (list N) := match parse_filename (dropN (G - gi_off it) b) with FName nm _ => Some nm | _ => None end.

Lemma item_place t pre bt rest m ents bl ls gb tab it nm t' : dirk t pre bt rest m ents bl ls gb tab -> In (nm, t') ents -> ent_at ev ents bl it nm t' ->
  let G := len pre + len (ser_meta ev m ++ bl) in
  let ln := 16 + len (nm ++ [0]) in
  exists bt' pre' rest', gi_size it <= gi_off it /\ gi_off it <= G /\ len pre <= G - gi_off it /\ G - gi_off it + ln = len pre' /\
    len pre' + len bt' = G - gi_off it + gi_size it /\ ln <= gi_size it /\
    dropN (G - gi_off it) b = obj F_FILENAME (nm ++ [0]) ++ bt' ++ rest' /\ b = pre' ++ bt' ++ rest' /\ arch ev t' bt' /\ next_ok rest' /\
    is_component nm /\ parse_filename (dropN (G - gi_off it) b) = FName nm ln /\ gi_hash it = hash nm /\ len b = len pre' + len bt' + len rest'.
Proof.
  intros [-> K2 K3 K4 K5 K6 K7] HI (bt' & bl1 & bl2 & l2 & ls2 & E1 & E2 & E3 & E4 & ->) G ln. cbn [gi_off gi_size gi_hash].
  inversion K7 as [| | | |? ? D N1 F]; subst m0 ents0. 
  assert (C : is_component nm) by (rewrite Forall_forall in F; apply (F _ HI)).
  assert (Lb : len b = len pre + len (ser_meta ev m) + len bl + len gb + len rest) by (rewrite K6, K2, !len_app; lia).
  set (O := obj F_FILENAME (nm ++ [0])) in *. assert (LO : len O = ln) by (unfold O; rewrite len_obj; reflexivity).
  assert (Lbl : len bl = len bl1 + ln + len bt' + len bl2) by (rewrite E1, !len_app, LO; lia).
  assert (Lg : G - len (O ++ bt' ++ bl2) = len (pre ++ ser_meta ev m ++ bl1)) by (unfold G; rewrite !len_app, Lbl, LO; lia).
  assert (B : b = (pre ++ ser_meta ev m ++ bl1) ++ O ++ bt' ++ bl2 ++ gb ++ rest) by (rewrite K6, K2, E1, <- !app_assoc; reflexivity).
  assert (DR : dropN (len (pre ++ ser_meta ev m ++ bl1)) b = O ++ bt' ++ bl2 ++ gb ++ rest) by (rewrite B; apply dropN_app_exact; reflexivity).
  exists bt', (pre ++ ser_meta ev m ++ bl1 ++ O), (bl2 ++ gb ++ rest). rewrite Lg.
  split; [rewrite !len_app; lia|]. split; [unfold G; rewrite !len_app; lia|]. split; [rewrite len_app; lia|]. split; [rewrite !len_app, LO; lia|].
  split; [rewrite !len_app; lia|]. split; [rewrite len_app, LO; lia|]. split; [exact DR|]. split; [rewrite B, <- !app_assoc; reflexivity|]. split; [exact E2|].
  assert (Ll : 81 * len ents <= len bl /\ len ls = len ents) by exact (proj2 (arch_len ev) _ _ _ K3).
  split.
  { eapply (ents_next ev l2 bl2 ls2 (len (ser_meta ev m ++ bl)) ls gb rest E3).
    - apply Forall_forall. intros e He. rewrite Forall_forall in F. apply F, E4, He.
    - unfold UINT64_MAX in *. lia.
    - exists tab. auto.
    - pose proof (ser_meta_len ev m). rewrite len_app. lia.
    - rewrite len_app. unfold UINT64_MAX in *. lia. }
  split; [exact C|]. split; [rewrite DR; apply fn_name; [exact C|unfold UINT64_MAX, ln in *; lia]|]. split; [reflexivity|]. rewrite !len_app. unfold O. rewrite len_obj. fold ln. lia.
Qed.

Lemma stage_table k s n up x xs sub t pre bt rest m ents bl ls gb tab c cs : below k -> (length cs < k)%nat -> sk s n up x xs sub ->
  names_of sub = c :: cs -> good_at ev b T t pre bt rest (path_of (n :: up)) n x -> S_ISDIR (node_mode n) = true ->
  dirk t pre bt rest m ents bl ls gb tab -> x_gb x = Some tab -> x_gboff x = len pre + len (ser_meta ev m ++ bl) ->
  s_idx s = 0 -> okseek s.
Proof.
  intros HB Hk K Hc G Hm DK X1 X2. set (GO := len pre + len (ser_meta ev m ++ bl)) in *.
  destruct (proj2 (dk_tab _ _ _ _ _ _ _ _ _ _ DK) (hash c)) as (ms & P & L).
  destruct (get_component sub) as [[c'|] q] eqn:C; [|apply component_none in C; destruct C as [C _]; congruence].
  pose proof C as C0. apply component_some in C. destruct C as (C1 & C2 & C3 & C4 & _). rewrite Hc in C1. injection C1 as <- C1.
  assert (Lb : len b = len pre + len bt + len rest) by (rewrite (g_b _ _ _ _ _ _ _ _ _ _ G) at 1; rewrite !len_app; lia).
  assert (Go : dn_entry_offset n = len pre) by apply G.
  assert (LG : GO <= len b).
  { rewrite Lb, (dk_bt _ _ _ _ _ _ _ _ _ _ DK). unfold GO. rewrite !len_app. lia. }
  assert (Gen : forall d s, sk s n up x xs sub -> (N.to_nat (len ms - s_idx s) <= d)%nat -> s_idx s <= len ms ->
    (forall j it, (j < N.to_nat (s_idx s))%nat -> nth_error ms j = Some it -> name_at GO it <> Some c) -> okseek s).
  2:{ intros E0. eapply (Gen (N.to_nat (len ms)) s K); rewrite E0; [lia|lia|]. intros j it Hj. cbn in Hj. lia. }
  assert (US : usable n x).
  { split; [apply dir_not_none, Hm|]. rewrite X1, X2. split; [intros _ _ E; unfold UINT64_MAX in *; lia|discriminate]. }
  clear s K. induction d as [|d IHd]; intros s K Hd Hi Hmis.
  - (* no item left *)
    eapply nowhere_ok; [exact K|exact US| |].
    + rewrite <- (sk_goal _ _ _ _ _ _ K), Hc. eapply no_entry; [apply G|]. intros m' ents' t' E Hin. rewrite (dk_t _ _ _ _ _ _ _ _ _ _ DK) in E. injection E as <- <-.
      destruct (proj2 (ents_items _ _ _ _ (dk_ents _ _ _ _ _ _ _ _ _ _ DK)) c t' Hin) as (it & J1 & J2).
      pose proof (item_place _ _ _ _ _ _ _ _ _ _ _ _ _ DK Hin J2) as Pl. cbv zeta in Pl. fold GO in Pl. destruct Pl as (bt' & pre' & rest' & _ & _ & _ & _ & _ & _ & _ & _ & _ & _ & _ & PF & HH & _).
      assert (I2 : In it ms). { eapply Permutation_in; [symmetry; exact P|]. apply filter_In. split; [exact J1|]. apply N.eqb_eq. exact HH. }
      apply In_nth_error in I2. destruct I2 as [j Hj]. refine (Hmis j it _ Hj _); [|unfold name_at; rewrite PF; reflexivity].
      assert (j < length ms)%nat by (apply nth_error_Some; congruence). unfold len in *. lia.
    + unfold do_seek. rewrite (sk_nodes _ _ _ _ _ _ K), (sk_x _ _ _ _ _ _ K), (sk_sub _ _ _ _ _ _ K), C0. cbn [fst].
      destruct (N.eqb_spec (dn_entry_offset n) UINT64_MAX) as [E | _]; [exfalso; unfold UINT64_MAX in *; lia|].
      destruct (N.eqb_spec (node_mode n) MODE_NONE) as [E | _]; [rewrite E in Hm; discriminate|]. rewrite Hm. cbn [negb]. rewrite X1, X2.
      destruct (N.eqb_spec GO UINT64_MAX) as [E | _]; [exfalso; unfold UINT64_MAX in *; lia|]. rewrite L.
      assert (E : nth_error ms (N.to_nat (s_idx s)) = None) by (apply nth_error_None; unfold len in *; lia). rewrite E. reflexivity.
  - destruct (nth_error ms (N.to_nat (s_idx s))) as [it|] eqn:Hit.
    2:{ eapply (IHd s K); [|exact Hi|exact Hmis]. apply nth_error_None in Hit. unfold len in *. lia. }
    assert (I1 : In it ls /\ gi_hash it = hash c).
    { apply nth_error_In in Hit. apply (Permutation_in _ P) in Hit. apply filter_In in Hit. destruct Hit as [A B]. apply N.eqb_eq in B. auto. }
    destruct I1 as [I1 I2]. destruct (proj1 (ents_items _ _ _ _ (dk_ents _ _ _ _ _ _ _ _ _ _ DK)) it I1) as (nm & t' & J1 & J2).
    pose proof (item_place _ _ _ _ _ _ _ _ _ _ _ _ _ DK J1 J2) as Pl. cbv zeta in Pl. fold GO in Pl.
    set (ln := 16 + len (nm ++ [0])) in *. set (a := GO - gi_off it) in *.
    destruct Pl as (bt' & pre' & rest' & F1 & F2 & F3 & F4 & F5 & F6 & F7 & F8 & F9 & F10 & F11 & F12 & F13 & F14).
    set (en := a + gi_size it) in *.
    assert (Ad : add64 a (gi_size it) = en) by (unfold add64, en; apply N.mod_small; unfold two64, UINT64_MAX in *; lia).
    exists true, (prep s KFilename a en). split.
    { unfold do_seek. rewrite (sk_nodes _ _ _ _ _ _ K), (sk_x _ _ _ _ _ _ K), (sk_sub _ _ _ _ _ _ K), C0. cbn [fst].
      destruct (N.eqb_spec (dn_entry_offset n) UINT64_MAX) as [E | _]; [exfalso; unfold UINT64_MAX in *; lia|].
      destruct (N.eqb_spec (node_mode n) MODE_NONE) as [E | _]; [rewrite E in Hm; discriminate|]. rewrite Hm. cbn [negb]. rewrite X1, X2.
      destruct (N.eqb_spec GO UINT64_MAX) as [E | _]; [exfalso; unfold UINT64_MAX in *; lia|]. rewrite L, Hit. cbn [bind].
      destruct (N.ltb_spec (gi_off it) (gi_size it)) as [E | _]; [lia|]. destruct (N.ltb_spec GO (gi_off it)) as [E | _]; [lia|]. fold a.
      destruct (N.ltb_spec a (dn_entry_offset n)) as [E | _]; [lia|]. rewrite Ad. reflexivity. }
    intros pos0.
    eapply (go env ev b QQ KFilename (prep s KFilename a en) (d_ff (s_d s)) n up (x :: xs) (d_bound (s_d s)) sub (s_idx s) a en);
      try first [reflexivity | exact (sk_nodes _ _ _ _ _ _ K) | exact (sk_x _ _ _ _ _ _ K) | exact (sk_down _ _ _ _ _ _ K) | exact (sk_sub _ _ _ _ _ _ K)
                | exact (sk_sib _ _ _ _ _ _ K) | exact (sk_pay _ _ _ _ _ _ K) | exact Hm | discriminate | lia].
    { left. reflexivity. }
    clear pos0. apply (feed env ev b QQ (fun f => f = d_ff (s_d s))); [|reflexivity|lia]. intros f pos -> Hp.
    set (f := d_ff (s_d s)) in *. set (B := d_bound (s_d s)) in *. set (idx := s_idx s) in *. pose proof (sk_stack _ _ _ _ _ _ K) as SO. pose proof (sk_root _ _ _ _ _ _ K) as RO.
    pose proof (sk_ff _ _ _ _ _ _ K) as Hf. fold f in Hf. pose proof (sk_goal _ _ _ _ _ _ K) as Hg. 
    set (S0 := SS (SSeek KFilename) f (n :: up) (x :: xs) B a sub idx a en pos).
    set (w := dropN a b) in *. assert (Lw : len w = len b - a) by (unfold w; apply len_dropN).
    assert (TY : type_is (d_buf (s_d S0)) F_GOODBYE = false).
    { destruct (type_is (d_buf (s_d S0)) F_GOODBYE) eqn:E; [|reflexivity]. exfalso. cbn [S0 SeekProofs4.SS s_d d_buf] in E. fold w in E. apply type_pre in E.
      rewrite F7 in E. rewrite (obj_type F_FILENAME) in E by reflexivity. discriminate. }
    destruct (pf_pre w (pos - a) ltac:(lia) ltac:(rewrite F12; discriminate)) as [[PF PL] | PF].
    { right. split; [lia|]. exists f. split; [reflexivity|]. unfold S0. rewrite sstep_filename by (auto || exact Hm). fold S0. unfold seeking_filename. rewrite TY.
      cbn [S0 SeekProofs4.SS s_d d_buf]. fold w. rewrite PF. reflexivity. }
    left. rewrite F12 in PF.
    assert (Lbuf : ln <= pos - a). { apply parse_filename_name in PF. destruct PF as [_ [_ PF]]. rewrite len_takeN in PF. lia. }
    assert (Lbuf2 : len (takeN (pos - a) w) = pos - a) by (rewrite len_takeN; lia).
    pose proof (match_spec sub c q nm C0 F11) as MS.
    assert (Depth : beq nm c = true -> at_path T (path_of (n :: up) ++ [nm]) t' /\ (NODES_MAX <=? len (n :: up)) = false).
    { intros _. assert (AP : at_path T (path_of (n :: up) ++ [nm]) t').
      { eapply at_snoc; [|exact J1]. rewrite <- (dk_t _ _ _ _ _ _ _ _ _ _ DK). apply G. }
      split; [exact AP|]. rewrite <- (path_cons (mkDnode nm (a + ln) None MODE_NONE)) in AP by discriminate.
      destruct (depth_ok _ _ _ AP) as (kk & _ & D2). rewrite len_cons in D2. apply N.leb_gt. lia. }
    assert (St : sstep S0 = match match_component sub nm with
      | MATCH_NO => seek_on hash (with_idx S0 (idx + 1))
      | mm => if match mm with MATCH_MORE => true | _ => false end then
                if NODES_MAX <=? len (n :: up) then Err EFBIG
                else Ok (SR R_STEP, senter (push_child (with_sub (with_idx S0 0) q) nm ln en) SEntered ln)
              else if NODES_MAX <=? len (n :: up) then Err EFBIG
                else Ok (R_FOUND, senter_d (push_child (with_d (reset_seek (with_idx S0 0)) (set_bound (s_d S0) (len (n :: up)))) nm ln en) D_ENTERED ln)
      end).
    { unfold S0. rewrite sstep_filename by (auto || exact Hm). fold S0. unfold seeking_filename. rewrite TY.
      cbn [S0 SeekProofs4.SS s_d d_buf s_sub s_end s_sib s_pay d_nodes s_idx orb negb]. fold w. rewrite PF. rewrite C0. destruct (match_component sub nm); reflexivity. }
    assert (AddA : add64 a ln = a + ln) by (unfold add64; apply N.mod_small; unfold two64, UINT64_MAX in *; lia).
    destruct (beq nm c) eqn:BE.
    + apply beq_eq in BE. subst nm. destruct (Depth eq_refl) as [AP DP]. rewrite DP in St.
      set (nc := mkDnode c (a + ln) None MODE_NONE).
      assert (PN : path_of (nc :: n :: up) = path_of (n :: up) ++ [c]) by (apply path_cons; discriminate).
      assert (GC : good_at ev b T t' pre' bt' rest' (path_of (nc :: n :: up)) nc (fresh_ext en)).
      { rewrite PN. constructor; try assumption.
        - destruct t'; try exact I. exact F10.
        - right. cbn [fresh_ext x_end]. unfold en. lia.
        - right. split; [reflexivity|]. left. reflexivity.
        - left. reflexivity.
        - apply dir_ok_fresh. exact F9. }
      destruct q as [|q0 q'].
      * rewrite MS in St. cbn iota in St.
        assert (cs = []) by (rewrite C1; reflexivity). subst cs.
        eapply leads_end; [exact St|].
        destruct (at_dec _ _ _ _ HT AP) as [DT FC]. destruct (depth_ok nc (n :: up) t' (g_path _ _ _ _ _ _ _ _ _ _ GC)) as (kk & D1 & D2).
        split.
        -- left. split; [reflexivity|]. exists t'. rewrite <- Hg, Hc. split; [exact AP|].
           eapply found_shows with (n := nc) (up := n :: up) (bt := bt') (rest := rest') (k := kk) (ev := ev); try assumption; try reflexivity.
           ++ cbn [senter_d push_child s_d set_nodes enter d_nodes d_aoff S0 SeekProofs4.SS with_d reset_seek with_idx set_bound]. rewrite AddA. reflexivity.
           ++ unfold at_buf. cbn [senter_d push_child s_d set_nodes enter d_nodes d_aoff S0 SeekProofs4.SS with_d reset_seek with_idx set_bound d_step d_buf d_eof nc dn_entry_offset].
              fold w. split; [lia|]. split; [reflexivity|]. split; [|split; [lia|reflexivity]].
              replace (pos - a) with ((pos - (a + ln)) + ln) by lia. rewrite <- takeN_dropN_comm. unfold w. rewrite dropN_dropN. f_equal. f_equal. lia.
           ++ cbn [nc dn_entry_offset]. rewrite F4, F8. apply dropN_app_exact. reflexivity.
           ++ rewrite D2. lia.
           ++ discriminate.
           ++ destruct t'; try exact I. exact F10.
        -- split.
           2:{ constructor; cbn [senter_d push_child s_d set_nodes enter d_nodes d_aoff S0 SeekProofs4.SS with_d reset_seek with_idx set_bound s_x tl].
               - exact (conj US (sk_use _ _ _ _ _ _ K)).
               - intros [E | E]; discriminate.
               - intros _. rewrite AddA. change (mkDnode c (a + ln) None MODE_NONE) with nc. rewrite PN, <- Hg, Hc. reflexivity. }
           constructor; cbn [senter_d push_child s_d set_nodes enter d_nodes d_aoff S0 SeekProofs4.SS with_d reset_seek with_idx set_bound s_x s_down d_ff].
           ++ rewrite AddA. split; [|exact SO]. exists t', pre', bt', rest'. exact GC.
           ++ apply root_push. exact RO.
           ++ reflexivity.
           ++ exact Hf.
      * rewrite MS in St. cbn iota in St. eapply leads_step; [exact St|].
        assert (E : sstep (senter (push_child (with_sub (with_idx S0 0) (q0 :: q')) c ln en) SEntered ln) =
          sstep (SS SEntered f (nc :: n :: up) (fresh_ext en :: x :: xs) B (a + ln) (q0 :: q') 0 a en pos)).
        { set (X := senter _ _ _). assert (HA : d_step (s_d X) <= len (d_buf (s_d X))) by (change (ln <= len (takeN (pos - a) w)); lia).
          rewrite (sstep_adv X SEntered (adv (s_d X)) eq_refl ltac:(discriminate) (advance_ok _ HA) eq_refl eq_refl). f_equal.
          change (mkSdec (mkDec D_ENTERED f (mkDnode c (add64 a ln) None MODE_NONE :: n :: up) (dropN ln (takeN (pos - a) w)) false
            (if ln =? 0 then a else add64 a ln) 0 0 B) SEntered (fresh_ext en :: x :: xs) [] (Some (q0 :: q')) false 0 a en UINT64_MAX =
            SS SEntered f (nc :: n :: up) (fresh_ext en :: x :: xs) B (a + ln) (q0 :: q') 0 a en pos).
          assert (Z : (ln =? 0) = false) by (apply N.eqb_neq; unfold ln; lia). rewrite Z, AddA.
          replace (dropN ln (takeN (pos - a) w)) with (takeN (pos - (a + ln)) (dropN (a + ln) b)); [reflexivity|].
          replace (pos - a) with ((pos - (a + ln)) + ln) by lia. rewrite <- takeN_dropN_comm. unfold w. rewrite dropN_dropN. f_equal. f_equal. lia. }
        eapply leads_same; [exact E|].
        eapply stage_entered with (k := k); try eassumption.
        -- rewrite <- C1. exact Hk.
        -- unfold en, UINT64_MAX in *. lia.
        -- exact (conj US (sk_use _ _ _ _ _ _ K)).
        -- change (mkDnode c (a + ln) None MODE_NONE) with nc. rewrite PN, <- C1, <- app_assoc. cbn [app]. rewrite <- Hg, Hc. reflexivity.
        -- lia.
    + rewrite MS in St. eapply seek_on_leads; [exact St|]. eapply IHd.
      * destruct K. constructor; try assumption; reflexivity.
      * cbn [with_idx S0 SeekProofs4.SS s_idx]. fold idx in Hd. assert (NL : (N.to_nat idx < length ms)%nat) by (apply nth_error_Some; rewrite Hit; discriminate). unfold len in *. lia.
      * cbn [with_idx S0 SeekProofs4.SS s_idx]. assert (NL : (N.to_nat idx < length ms)%nat) by (apply nth_error_Some; rewrite Hit; discriminate). unfold len in *. lia.
      * cbn [with_idx S0 SeekProofs4.SS s_idx]. intros j it' Hj Hn. destruct (Nat.eq_dec j (N.to_nat idx)) as [-> | NE].
        -- rewrite Hit in Hn. injection Hn as <-. unfold name_at. fold a. fold w. rewrite F12. intros E. injection E as ->. rewrite beq_refl in BE. discriminate.
        -- apply (Hmis j it'); [fold idx; lia|exact Hn].
Qed.

(** ** The table of names *)
Lemma items64 t pre bt rest m ents bl ls gb tab : dirk t pre bt rest m ents bl ls gb tab -> Forall item64 tab /\ len tab = len ls.
Proof.
  intros DK. destruct (dk_tab _ _ _ _ _ _ _ _ _ _ DK) as [P _]. split; [|unfold len; rewrite (Permutation_length P); reflexivity].
  apply Forall_forall. intros it Hi. apply (Permutation_in _ P) in Hi.
  destruct (proj1 (ents_items _ _ _ _ (dk_ents _ _ _ _ _ _ _ _ _ _ DK)) it Hi) as (nm & t' & J1 & J2).
  pose proof (item_place _ _ _ _ _ _ _ _ _ _ _ _ _ DK J1 J2) as Pl. cbv zeta in Pl.
  destruct Pl as (bt' & pre' & rest' & F1 & F2 & F3 & F4 & F5 & F6 & F7 & F8 & F9 & F10 & F11 & F12 & F13 & F14).
  assert (LG : len pre + len (ser_meta ev m ++ bl) <= len b).
  { rewrite (dk_b _ _ _ _ _ _ _ _ _ _ DK), (dk_bt _ _ _ _ _ _ _ _ _ _ DK), !len_app. lia. }
  split; [|split]; [unfold two64, UINT64_MAX in *; lia..|]. rewrite F13. apply Hhash.
Qed.

Lemma stage_goodbye k s n up x xs sub t pre bt rest m ents bl ls gb tab c cs : below k -> (length cs < k)%nat -> sk s n up x xs sub ->
  names_of sub = c :: cs -> good_at ev b T t pre bt rest (path_of (n :: up)) n x -> S_ISDIR (node_mode n) = true ->
  dirk t pre bt rest m ents bl ls gb tab -> x_gb x = None -> x_gboff x = len pre + len (ser_meta ev m ++ bl) ->
  s_idx s = 0 -> okseek s.
Proof.
  intros HB Hk K Hc G Hm DK X1 X2 X3. set (GO := len pre + len (ser_meta ev m ++ bl)) in *.
  destruct (get_component sub) as [[c'|] q] eqn:C0; [|apply component_none in C0; destruct C0 as [C0 _]; congruence].
  assert (Lb : len b = len pre + len bt + len rest) by (rewrite (g_b _ _ _ _ _ _ _ _ _ _ G) at 1; rewrite !len_app; lia).
  assert (Go : dn_entry_offset n = len pre) by apply G.
  pose proof (dk_bt _ _ _ _ _ _ _ _ _ _ DK) as Ebt. pose proof (dk_gb _ _ _ _ _ _ _ _ _ _ DK) as Egb.
  assert (Lbt : len bt = len (ser_meta ev m) + len bl + len gb) by (rewrite Ebt, !len_app; lia).
  assert (LGO : GO = len pre + len (ser_meta ev m) + len bl) by (unfold GO; rewrite len_app; lia).
  exists true, (prep s KGoodbye GO UINT64_MAX). split.
  { unfold do_seek. rewrite (sk_nodes _ _ _ _ _ _ K), (sk_x _ _ _ _ _ _ K), (sk_sub _ _ _ _ _ _ K), C0. cbn [fst].
    destruct (N.eqb_spec (dn_entry_offset n) UINT64_MAX) as [E | _]; [exfalso; unfold UINT64_MAX in *; lia|].
    destruct (N.eqb_spec (node_mode n) MODE_NONE) as [E | _]; [rewrite E in Hm; discriminate|]. rewrite Hm. cbn [negb]. rewrite X1, X2.
    destruct (N.eqb_spec GO UINT64_MAX) as [E | _]; [exfalso; unfold UINT64_MAX in *; lia|]. reflexivity. }
  intros pos0.
  eapply (go env ev b QQ KGoodbye (prep s KGoodbye GO UINT64_MAX) (d_ff (s_d s)) n up (x :: xs) (d_bound (s_d s)) sub (s_idx s) GO UINT64_MAX);
    try first [reflexivity | exact (sk_nodes _ _ _ _ _ _ K) | exact (sk_x _ _ _ _ _ _ K) | exact (sk_down _ _ _ _ _ _ K) | exact (sk_sub _ _ _ _ _ _ K)
              | exact (sk_sib _ _ _ _ _ _ K) | exact (sk_pay _ _ _ _ _ _ K) | exact Hm | discriminate | lia].
  { right. left. reflexivity. }
  clear pos0. apply (feed env ev b QQ (fun f => f = d_ff (s_d s))); [|reflexivity|lia]. intros f pos -> Hp.
  set (f := d_ff (s_d s)) in *. set (B := d_bound (s_d s)) in *. set (idx := s_idx s) in *.
  set (S0 := SS (SSeek KGoodbye) f (n :: up) (x :: xs) B GO sub idx GO UINT64_MAX pos).
  set (w := dropN GO b). assert (Lw : len w = len b - GO) by (unfold w; apply len_dropN).
  assert (W : w = gb ++ rest).
  { unfold w. rewrite (dk_b _ _ _ _ _ _ _ _ _ _ DK), Ebt. replace (pre ++ (ser_meta ev m ++ bl ++ gb) ++ rest) with ((pre ++ ser_meta ev m ++ bl) ++ gb ++ rest) by (rewrite <- !app_assoc; reflexivity).
    apply dropN_app_exact. rewrite !len_app. lia. }
  assert (TY : type_is (d_buf (s_d S0)) F_FILENAME = false).
  { destruct (type_is (d_buf (s_d S0)) F_FILENAME) eqn:E; [|reflexivity]. exfalso. cbn [S0 SeekProofs4.SS s_d d_buf] in E. fold w in E. apply type_pre in E.
    rewrite W, Egb in E. rewrite (obj_type F_GOODBYE) in E by reflexivity. discriminate. }
  destruct (items64 _ _ _ _ _ _ _ _ _ _ DK) as [I64 Ltab].
  destruct (proj2 (arch_len ev) _ _ _ (dk_ents _ _ _ _ _ _ _ _ _ _ DK)) as [Lbl Lls]. pose proof (ser_meta_len ev m) as Lm.
  assert (GB : goodbye_of (len (ser_meta ev m ++ bl)) ls gb) by (exists tab; split; [apply (dk_tab _ _ _ _ _ _ _ _ _ _ DK)|exact Egb]).
  assert (PW : parse_filename w = FGoodbye (len (ser_meta ev m ++ bl)) (len gb)).
  { rewrite W. eapply fn_goodbye; [exact GB| |]; rewrite len_app; unfold UINT64_MAX in *; lia. }
  destruct (goodbye_read (len (ser_meta ev m ++ bl)) tab ls rest I64 Ltab) as [Lgb RD]. cbv zeta in Lgb, RD. rewrite <- Egb in Lgb, RD.
  destruct (pf_pre w (pos - GO) ltac:(lia) ltac:(rewrite PW; discriminate)) as [[PF PL] | PF].
  { right. split; [lia|]. exists f. split; [reflexivity|]. unfold S0. rewrite sstep_filename by (auto || exact Hm). fold S0. unfold seeking_filename. rewrite TY.
    cbn [S0 SeekProofs4.SS s_d d_buf]. fold w. rewrite PF. reflexivity. }
  left. rewrite PW in PF.
  assert (Lbuf : len gb <= len (takeN (pos - GO) w)). { apply parse_filename_goodbye in PF. lia. }
  assert (IT : goodbye_items (len gb) (takeN (pos - GO) w) = tab).
  { rewrite <- RD, <- W. rewrite <- (takeN_dropN (pos - GO) w) at 2. symmetry. apply goodbye_items_ext; [exact Lbuf|unfold HDR, GOODBYE_TAIL; lia]. }
  set (x' := mkExt (x_end x) (x_gboff x) (Some tab) (x_pay x)).
  assert (St : sstep S0 = seek_on hash (with_x S0 (x' :: xs))).
  { unfold S0. rewrite sstep_filename by (auto || exact Hm). fold S0. unfold seeking_filename. rewrite TY.
    cbn [S0 SeekProofs4.SS s_d d_buf d_aoff]. fold w. rewrite PF, IT.
    assert (Z : sub64 GO (dn_entry_offset n) = len (ser_meta ev m ++ bl)).
    { unfold sub64. rewrite Go. replace (GO + (two64 - len pre)) with (len (ser_meta ev m ++ bl) + 1 * two64) by (unfold GO; unfold two64, UINT64_MAX in *; lia).
      rewrite N.mod_add by discriminate. apply N.mod_small. rewrite len_app. unfold two64, UINT64_MAX in *. lia. }
    rewrite Z, N.eqb_refl. cbn [negb]. rewrite andb_false_r. reflexivity. }
  eapply seek_on_leads; [exact St|].
  assert (G' : good_at ev b T t pre bt rest (path_of (n :: up)) n x').
  { destruct G. constructor; try assumption. rewrite (dk_t _ _ _ _ _ _ _ _ _ _ DK). cbn [dir_ok]. exists bl, ls, gb, tab. destruct DK. cbn [x' x_gboff x_gb]. auto 10. }
  eapply (stage_table k (with_x S0 (x' :: xs)) n up x' xs sub); try eassumption; try reflexivity.
  destruct K. constructor; try assumption; try reflexivity.
  - split; [|apply sk_stack0]. exists t, pre, bt, rest. exact G'.
  - eapply (root_same ev); [|exact sk_root0|reflexivity|reflexivity|reflexivity]. destruct sk_stack0 as [_ SO]. eapply stack_len. exact SO.
  - intros _. split; [apply dir_not_none, Hm|]. cbn [x' x_gb x_gboff]. split.
    + intros _ _. rewrite X2. unfold GO. rewrite len_app. clear - Lb Lbt Hlen. unfold UINT64_MAX in *. lia.
    + discriminate.
Qed.

Lemma stage_tail k s n up x xs sub t pre bt rest m ents bl ls gb tab c cs : below k -> (length cs < k)%nat -> sk s n up x xs sub ->
  names_of sub = c :: cs -> good_at ev b T t pre bt rest (path_of (n :: up)) n x -> S_ISDIR (node_mode n) = true ->
  dirk t pre bt rest m ents bl ls gb tab -> x_gb x = None -> x_gboff x = UINT64_MAX -> x_end x = len pre + len bt -> (up = [] -> rest = [] /\ pre = []) ->
  s_idx s = 0 -> okseek s.
Proof.
  intros HB Hk K Hc G Hm DK X1 X2 X4 Hroot X3.
  destruct (get_component sub) as [[c'|] q] eqn:C0; [|apply component_none in C0; destruct C0 as [C0 _]; congruence].
  assert (Lb : len b = len pre + len bt + len rest) by (rewrite (g_b _ _ _ _ _ _ _ _ _ _ G) at 1; rewrite !len_app; lia).
  assert (Go : dn_entry_offset n = len pre) by apply G.
  pose proof (dk_bt _ _ _ _ _ _ _ _ _ _ DK) as Ebt. pose proof (dk_gb _ _ _ _ _ _ _ _ _ _ DK) as Egb.
  assert (Lbt : len bt = len (ser_meta ev m) + len bl + len gb) by (rewrite Ebt, !len_app; lia).
  destruct (items64 _ _ _ _ _ _ _ _ _ _ DK) as [I64 Ltab].
  destruct (proj2 (arch_len ev) _ _ _ (dk_ents _ _ _ _ _ _ _ _ _ _ DK)) as [Lbl Lls]. pose proof (ser_meta_len ev m) as Lm.
  destruct (goodbye_read (len (ser_meta ev m ++ bl)) tab ls rest I64 Ltab) as [Lgb _]. cbv zeta in Lgb. rewrite <- Egb in Lgb.
  set (a := x_end x - 24). set (en := x_end x).
  exists true, (prep s KTail a en). split.
  { unfold do_seek. rewrite (sk_nodes _ _ _ _ _ _ K), (sk_x _ _ _ _ _ _ K), (sk_sub _ _ _ _ _ _ K), C0. cbn [fst].
    destruct (N.eqb_spec (dn_entry_offset n) UINT64_MAX) as [E | _]; [exfalso; unfold UINT64_MAX in *; lia|].
    destruct (N.eqb_spec (node_mode n) MODE_NONE) as [E | _]; [rewrite E in Hm; discriminate|]. rewrite Hm. cbn [negb]. rewrite X1, X2.
    rewrite N.eqb_refl. cbn [negb]. destruct (N.eqb_spec (x_end x) UINT64_MAX) as [E | _]; [exfalso; unfold UINT64_MAX in *; lia|]. cbn [negb].
    destruct (N.ltb_spec (x_end x) GOODBYE_TAIL) as [E | _]; [unfold GOODBYE_TAIL in *; lia|]. reflexivity. }
  intros pos0.
  eapply (go env ev b QQ KTail (prep s KTail a en) (d_ff (s_d s)) n up (x :: xs) (d_bound (s_d s)) sub (s_idx s) a en);
    try first [reflexivity | exact (sk_nodes _ _ _ _ _ _ K) | exact (sk_x _ _ _ _ _ _ K) | exact (sk_down _ _ _ _ _ _ K) | exact (sk_sub _ _ _ _ _ _ K)
              | exact (sk_sib _ _ _ _ _ _ K) | exact (sk_pay _ _ _ _ _ _ K) | exact Hm | discriminate | lia].
  { right. right. reflexivity. }
  clear pos0. apply (feed env ev b QQ (fun f => f = d_ff (s_d s))); [|reflexivity|lia]. intros f pos -> Hp.
  set (f := d_ff (s_d s)) in *. set (B := d_bound (s_d s)) in *. set (idx := s_idx s) in *.
  set (S0 := SS (SSeek KTail) f (n :: up) (x :: xs) B a sub idx a en pos).
  set (w := dropN a b). assert (Lw : len w = len b - a) by (unfold w; apply len_dropN).
  assert (W : w = le64 (len (ser_meta ev m ++ bl)) ++ le64 (40 + 24 * len ls) ++ le64 F_GOODBYE_TAIL_MARKER ++ rest).
  { rewrite <- (tail_at _ tab ls rest Ltab). cbv zeta. rewrite <- Egb. unfold w. rewrite (dk_b _ _ _ _ _ _ _ _ _ _ DK) at 1. rewrite Ebt.
    replace (pre ++ (ser_meta ev m ++ bl ++ gb) ++ rest) with ((pre ++ ser_meta ev m ++ bl) ++ gb ++ rest) by (rewrite <- !app_assoc; reflexivity).
    rewrite dropN_app_ge by (rewrite !len_app; lia). f_equal. rewrite !len_app. lia. }
  set (buf := takeN (pos - a) w). assert (Lbuf : len buf = pos - a) by (unfold buf; rewrite len_takeN; lia).
  assert (Na : (a =? UINT64_MAX) = false) by (apply N.eqb_neq; unfold UINT64_MAX in *; lia).
  destruct (N.lt_ge_cases (len buf) 24) as [Sh | Sh].
  { right. split; [unfold a in *; lia|]. exists f. split; [reflexivity|]. unfold S0. rewrite sstep_tail by exact Hm. fold S0. unfold seeking_tail.
    cbn [S0 SeekProofs4.SS s_d d_aoff d_buf]. fold w. fold buf. rewrite Na. apply N.ltb_lt in Sh. unfold GOODBYE_TAIL. rewrite Sh. reflexivity. }
  left.
  assert (FL : forall o, o + 8 <= 24 -> fld o buf = fld o w).
  { intros o Ho. rewrite <- (takeN_dropN (pos - a) w) at 1. fold buf. symmetry. apply fld_ext. lia. }
  assert (W0 : fld 0 w = len (ser_meta ev m ++ bl)) by (rewrite W; apply fld_0_le64; rewrite len_app; unfold two64, UINT64_MAX in *; lia).
  assert (W8 : fld 8 w = len gb) by (rewrite W, fld_next by lia; change (8 - 8) with 0; rewrite Lgb; apply fld_0_le64; unfold two64, UINT64_MAX in *; lia).
  assert (W16 : fld 16 w = F_GOODBYE_TAIL_MARKER) by (rewrite W, !fld_next by lia; change (16 - 8 - 8) with 0; apply fld_0_le64; reflexivity).
  set (GO := len pre + len (ser_meta ev m ++ bl)).
  assert (LGO : GO = len pre + len (ser_meta ev m) + len bl) by (unfold GO; rewrite len_app; lia).
  assert (EGO : len pre + len bt - len gb = GO) by (rewrite LGO, Lbt; clear; lia).
  set (x' := mkExt (x_end x) GO None (x_pay x)).
  assert (St : sstep S0 = seek_on hash (with_x S0 (x' :: xs))).
  { unfold S0. rewrite sstep_tail by exact Hm. fold S0. unfold seeking_tail. 
    change (d_aoff (s_d S0)) with a. change (d_buf (s_d S0)) with buf. rewrite Na. destruct (N.ltb_spec (len buf) GOODBYE_TAIL) as [E | _]; [unfold GOODBYE_TAIL in E; lia|].
    rewrite !FL by lia. rewrite W0, W8, W16. rewrite N.eqb_refl. cbn [negb].
    assert (HE : add64 a GOODBYE_TAIL = len pre + len bt) by (unfold add64, a, GOODBYE_TAIL; rewrite N.mod_small by (unfold two64, UINT64_MAX in *; lia); lia).
    rewrite HE. destruct (N.ltb_spec (len gb) (HDR + GOODBYE_TAIL)) as [E | _]; [unfold HDR, GOODBYE_TAIL in E; lia|].
    assert (Md : (len gb - HDR - GOODBYE_TAIL) mod GOODBYE_ITEM = 0).
    { rewrite Lgb. unfold HDR, GOODBYE_TAIL, GOODBYE_ITEM. replace (40 + 24 * len ls - 16 - 24) with (len ls * 24) by lia. apply N.mod_mul. discriminate. }
    rewrite Md. cbn [N.eqb negb]. destruct (N.ltb_spec (len pre + len bt) (len gb)) as [E | _]; [lia|].
    destruct (N.ltb_spec (len (ser_meta ev m ++ bl)) ENTRY_SIZE) as [E | _]; [rewrite len_app in E; unfold ENTRY_SIZE in E; lia|].
    destruct (N.ltb_spec (len pre + len bt - len gb) (len (ser_meta ev m ++ bl))) as [E | _]; [rewrite len_app in E; lia|].
    assert (AR : (at_root (s_d S0) && negb (len pre + len bt =? add64 (len gb) (len (ser_meta ev m ++ bl))))%bool = false).
    { destruct (at_root (s_d S0)) eqn:AR; [|reflexivity]. unfold at_root in AR. cbn [S0 SeekProofs4.SS s_d d_nodes] in AR. apply N.eqb_eq in AR. rewrite len_cons in AR.
      assert (U : up = []) by (apply len_zero_nil; lia). destruct (Hroot U) as [_ ->]. unfold add64. rewrite N.mod_small by (rewrite len_app; unfold two64, UINT64_MAX in *; lia).
      rewrite len_app. change (len (@nil N)) with 0. cbn [andb]. apply negb_false_iff, N.eqb_eq. lia. }
    rewrite AR. unfold x'. rewrite X1. rewrite EGO. reflexivity. }
  eapply seek_on_leads; [exact St|].
  assert (G' : good_at ev b T t pre bt rest (path_of (n :: up)) n x').
  { destruct G. constructor; try assumption. rewrite (dk_t _ _ _ _ _ _ _ _ _ _ DK). cbn [dir_ok]. exists bl, ls, gb, tab. destruct DK. cbn [x' x_gboff x_gb]. auto 10. }
  eapply (stage_goodbye k (with_x S0 (x' :: xs)) n up x' xs sub); try eassumption; try reflexivity.
  destruct K. constructor; try assumption; try reflexivity.
  - split; [|apply sk_stack0]. exists t, pre, bt, rest. exact G'.
  - eapply (root_same ev); [|exact sk_root0|reflexivity|reflexivity|reflexivity]. destruct sk_stack0 as [_ SO]. eapply stack_len. exact SO.
  - intros _. split; [apply dir_not_none, Hm|]. cbn [x' x_gb x_gboff]. split.
    + intros _ _. rewrite LGO. clear - Lb Lbt Hlen. unfold UINT64_MAX in *. lia.
    + intros _. left. rewrite LGO. clear - Lb Lbt Hlen. unfold UINT64_MAX in *. lia.
Qed.

Lemma root_place n x t pre bt rest : root_ok b [n] [x] -> good_at ev b T t pre bt rest [] n x -> rest = [] /\ pre = [].
Proof.
  intros (_ & R2 & R3) G. assert (Lb : len b = len pre + len bt + len rest) by (rewrite (g_b _ _ _ _ _ _ _ _ _ _ G) at 1; rewrite !len_app; lia).
  assert (len pre = 0) by (rewrite <- (g_off _ _ _ _ _ _ _ _ _ _ G); exact R2).
  destruct (g_end _ _ _ _ _ _ _ _ _ _ G) as [E | E]; [unfold UINT64_MAX in *; lia|]. split; apply len_zero_nil; lia.
Qed.

(** ** A seek from a place the decoder knows enough about *)
Theorem seek_below : forall k s n up x xs sub, sk s n up x xs sub -> (length (names_of sub) < k)%nat -> s_idx s = 0 ->
  (names_of sub = [] \/ usable n x) -> okseek s.
Proof.
  induction k as [|k IH]; intros s n up x xs sub K Hk Hi Hu; [lia|].
  destruct (names_of sub) as [|c cs] eqn:Nm; [eapply stage_here; eassumption|]. destruct Hu as [Hu | (U1 & U2 & U3)]; [discriminate|]. cbn [length] in Hk.
  pose proof (sk_stack _ _ _ _ _ _ K) as [(t & pre & bt & rest & G) SO].
  destruct (at_dec _ _ _ _ HT (g_path _ _ _ _ _ _ _ _ _ _ G)) as [DT FC].
  pose proof (mode_known _ _ _ (g_mode _ _ _ _ _ _ _ _ _ _ G) DT U1) as MD.
  assert (Lb : len b = len pre + len bt + len rest) by (rewrite (g_b _ _ _ _ _ _ _ _ _ _ G) at 1; rewrite !len_app; clear; lia).
  destruct (is_dir t) eqn:D.
  2:{ eapply nowhere_ok; [exact K|exact (conj U1 (conj U2 U3))| |].
      - rewrite <- (sk_goal _ _ _ _ _ _ K), Nm. apply no_entry with (t := t); [apply G|]. intros m ents t' ->. discriminate.
      - destruct K. unfold do_seek. rewrite sk_nodes0, sk_x0, sk_sub0. rewrite (g_off _ _ _ _ _ _ _ _ _ _ G).
        destruct (N.eqb_spec (len pre) UINT64_MAX) as [E | _]; [exfalso; clear - E Lb Hlen; lia|].
        destruct (get_component sub) as [[c'|] q] eqn:C; [|apply component_none in C; destruct C as [C _]; congruence]. cbn [fst].
        destruct (N.eqb_spec (node_mode n) MODE_NONE) as [E | _]; [contradiction|]. rewrite MD. reflexivity. }
  assert (exists m ents, t = TDir m ents) as (m & ents & Et) by (destruct t; try discriminate; eauto).
  pose proof (g_dir _ _ _ _ _ _ _ _ _ _ G) as DO. rewrite Et in DO. destruct DO as (bl & ls & gb & tab & D1 & D2 & D3 & D4 & D5 & D6).
  assert (DK : dirk t pre bt rest m ents bl ls gb tab) by (constructor; try assumption; apply G).
  assert (Gk : x_gboff x <> UINT64_MAX -> x_gboff x = len pre + len (ser_meta ev m ++ bl)) by (intros Z; destruct D5; [contradiction|assumption]).
  assert (Hk' : (length cs < k)%nat) by (clear - Hk; lia).
  destruct D6 as [D6 | D6].
  2:{ eapply (stage_table k); try eassumption. apply Gk, U2; congruence. }
  destruct (N.eq_dec (x_gboff x) UINT64_MAX) as [Z | Z].
  2:{ eapply (stage_goodbye k); try eassumption. apply Gk, Z. }
  destruct (U3 D6) as [U | U]; [contradiction|].
  eapply (stage_tail k); try eassumption.
  { destruct (g_end _ _ _ _ _ _ _ _ _ _ G) as [E | E]; [contradiction|exact E]. }
  intros ->. apply stack_len in SO. destruct xs as [|x1 xs]; [|rewrite len_cons in SO; change (len (@nil dnode)) with 0 in SO; clear - SO; lia].
  eapply root_place; [apply K|exact G].
Qed.
End Stage.
