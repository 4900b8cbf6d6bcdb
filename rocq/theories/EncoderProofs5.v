(** An archive the encoder writes contains the tree that is to be stored. *)
From Coq Require Import Sorted Permutation.
From Verif Require Import Base FeatureFlags FeatureFlagsSpec FeatureFlagsProofs ArchiveBase Bst BstProofs DecoderSpec DecoderProofs5
  Decoder Encoder EncoderSpec EncoderProofs EncoderProofs3 ArchiveSpec RoundTrip1 RoundTrip2 RoundTrip3 RoundTrip4 EncoderProofs4.
Local Open Scope N_scope.

Lemma le_of_cmp x y : name_item_cmp x y <> Gt -> name_item_le x y = true.
Proof.
  unfold name_item_cmp, name_item_le. destruct (N.compare_spec (ni_hash x) (ni_hash y)) as [E | E | E]; intros H; try congruence.
  - rewrite E, N.ltb_irrefl, N.eqb_refl. cbn [orb andb]. apply N.leb_le. destruct (N.compare_spec (ni_start x) (ni_start y)); [lia|lia|congruence].
  - apply orb_true_iff. left. apply N.ltb_lt, E.
Qed.

Section Tree.
Variable ev : eenv.
Let ff := ev_ff ev.

(** ** GOODBYE *)
Lemma array_list_length {A} (o : array A) n : forall i l, array_list o i n = Some l -> length l = n.
Proof.
  induction n as [|n IH]; intros i l; cbn; [intros [= <-]; reflexivity|]. destruct (o i); [|discriminate].
  destruct (array_list o (i + 1) n) as [l'|] eqn:E; [|discriminate]. intros [= <-]. cbn. f_equal. eapply IH, E.
Qed.
Definition gitem_of (start : N) (i : name_item) : gitem := mkGitem (start - ni_start i) (ni_end i - ni_start i) (ni_hash i).
Lemma search_inner_map {A C} (hash : A -> N) (hash' : C -> N) (g : A -> C) tab h : (forall x, hash' (g x) = hash x) ->
  forall fuel i idx, search_inner hash' fuel (map g tab) h i idx =
    match search_inner hash fuel tab h i idx with Ok (f, j) => Ok (option_map g f, j) | Err e => Err e | Abort => Abort | UB => UB end.
Proof.
  intros E. induction fuel as [|fuel IH]; intros i idx; cbn [search_inner]; rewrite nth_error_map; destruct (nth_error tab (N.to_nat i)) as [x|]; cbn [option_map]; try reflexivity.
  cbv zeta. rewrite E. destruct ((hash x =? h) && (idx =? 0))%bool; [reflexivity|].
  destruct (h <=? hash x).
  - rewrite IH. destruct (search_inner hash fuel tab h (2 * i + 1) _) as [[[y|] j]| | |]; cbn [bind option_map]; try reflexivity. destruct (hash x <=? h); [apply IH|reflexivity].
  - cbn [bind]. destruct (hash x <=? h); [apply IH|reflexivity].
Qed.
Lemma search_map {A C} (hash : A -> N) (hash' : C -> N) (g : A -> C) tab h idx : (forall x, hash' (g x) = hash x) ->
  forall o, goodbye_search hash tab h idx = Ok o -> goodbye_search hash' (map g tab) h idx = Ok (option_map g o).
Proof.
  intros E o. unfold goodbye_search. rewrite (search_inner_map hash hash' g tab h E). unfold len. rewrite map_length.
  destruct (search_inner hash _ tab h 0 idx) as [[f j]| | |]; cbn [bind]; try discriminate. intros H. injection H as ->. reflexivity.
Qed.
Lemma filter_map_comm {A C} (g : A -> C) (p : C -> bool) (q : A -> bool) l : (forall x, p (g x) = q x) -> filter p (map g l) = map g (filter q l).
Proof. intros E. induction l as [|x l IH]; [reflexivity|]. cbn [map filter]. rewrite E. destruct (q x); cbn [map]; rewrite IH; reflexivity. Qed.
Lemma table_searchable (Q : qsort_ok (ev_qsort ev)) start items l : name_table_make_bst (ev_qsort ev _ name_item_cmp) items = Ok l ->
  searchable (map (gitem_of start) l) (map (gitem_of start) items).
Proof.
  intros H. destruct (name_table_lookup (ev_qsort ev _ name_item_cmp) items) as (table & E & P & S).
  - intros k. apply Permutation_sym. apply (Q _ name_item_cmp k orders_item).
  - intros k. destruct (Q _ name_item_cmp k orders_item) as [_ R]. clear -R. induction R as [|x k0 R IH F]; constructor; [exact IH|]. revert F. apply Forall_impl. intros y. apply le_of_cmp.
  - rewrite H in E. apply Ok_inj in E. subst table. split; [apply Permutation_map, P|].
    intros h. destruct (S h) as (ms & Pm & Lk). exists (map (gitem_of start) ms). split.
    + rewrite (filter_map_comm (gitem_of start) _ (fun x => ni_hash x =? h)) by reflexivity. apply Permutation_map, Pm.
    + intros idx. rewrite (search_map ni_hash gi_hash (gitem_of start) l h idx (fun _ => eq_refl) _ (Lk idx)). rewrite nth_error_map. reflexivity.
Qed.
Lemma goodbye_arch (Q : qsort_ok (ev_qsort ev)) start eo items b : get_goodbye_data ev start eo items = Ok b ->
  goodbye_of (start - eo) (map (gitem_of start) items) b.
Proof.
  unfold get_goodbye_data. destruct (name_table_make_bst _ items) as [l| | |] eqn:E; cbn [bind]; try discriminate.
  destruct (negb _); [discriminate|]. destruct (negb _); [discriminate|]. intros H. apply Ok_inj in H. subst b.
  pose proof (table_searchable Q start items l E) as S. exists (map (gitem_of start) l). split; [exact S|].
  assert (Ll : len l = len items). { destruct S as [P _]. apply Permutation_length in P. rewrite !map_length in P. unfold len. rewrite P. reflexivity. }
  assert (M : map ser_gitem (map (gitem_of start) l) = map (ser_goodbye_item start) l) by (rewrite map_map; reflexivity). rewrite M.
  assert (Lm : len (map (gitem_of start) items) = len items) by (unfold len; rewrite map_length; reflexivity). rewrite Lm. unfold obj.
  assert (L : HDR + len (concat (map (ser_goodbye_item start) l) ++ le64 (start - eo) ++ le64 (40 + 24 * len items) ++ le64 F_GOODBYE_TAIL_MARKER) =
    HDR + GOODBYE_ITEM * len items + GOODBYE_TAIL).
  { rewrite !len_app, <- M, len_gitems, !len_le64. unfold len at 1. rewrite map_length. fold (len l). rewrite Ll. unfold HDR, GOODBYE_ITEM, GOODBYE_TAIL. lia. }
  rewrite L. replace (HDR + GOODBYE_ITEM * len items + GOODBYE_TAIL) with (40 + 24 * len items) by (unfold HDR, GOODBYE_ITEM, GOODBYE_TAIL; lia).
  reflexivity.
Qed.

(** ** Which entries are kept *)
Lemma if_false_iff (a b : bool) : (if a then false else b) = true <-> a = false /\ b = true.
Proof. destruct a; intuition discriminate. Qed.
Lemma kept_iff path dir name ch : name <> [46] -> name <> [46; 46] ->
  (shall_store ev path dir name ch = true <-> is_kept ev path dir (name, ch)).
Proof.
  intros N1 N2. unfold shall_store, is_kept, type_kept, nodump, other_mount. cbn [fst snd]. change (ev_ff ev) with ff.
  change FS_NODUMP_FL with (2 ^ 6). rewrite has_pow.
  set (m := f_mode ch). set (b6 := N.testbit _ 6).
  assert (M : (match fs_mount_id (f_stat ch) with Some a => match fs_mount_id (f_stat dir) with Some b => negb (a =? b) | None => false end | None => false end) = true <->
    exists x y, fs_mount_id (f_stat ch) = Some x /\ fs_mount_id (f_stat dir) = Some y /\ x <> y).
  { destruct (fs_mount_id (f_stat ch)) as [x|]; [|split; [discriminate|intros (? & ? & ? & _); discriminate]].
    destruct (fs_mount_id (f_stat dir)) as [y|]; [|split; [discriminate|intros (? & ? & _ & ? & _); discriminate]].
    rewrite negb_true_iff, N.eqb_neq. split; [eauto|]. intros (? & ? & [= <-] & [= <-] & H). exact H. }
  rewrite <- M. clear M.
  set (mm := match fs_mount_id (f_stat ch) with Some _ => _ | None => false end). clearbody mm b6.
  rewrite !if_false_iff, !andb_false_iff, !negb_false_iff, negb_true_iff.
  generalize (has ff WITH_SYMLINKS), (has ff WITH_DEVICE_NODES), (has ff WITH_FIFOS), (has ff WITH_SOCKETS), (has ff EXCLUDE_NODUMP), (has ff EXCLUDE_SUBMOUNTS).
  intros w1 w2 w3 w4 w5 w6.
  rewrite !orb_false_iff.
  assert (I1 : forall a b : bool, (a = true \/ b = false) <-> (b = true -> a = true)) by (intros [] []; intuition congruence).
  assert (I2 : forall a b c : bool, (a = true \/ b = false /\ c = false) <-> (b = true \/ c = true -> a = true)) by (intros [] [] []; intuition congruence).
  assert (I3 : forall a b : bool, (a = false \/ b = false) <-> ~ (a = true /\ b = true)) by (intros [] []; intuition congruence).
  assert (I4 : forall a b c d : bool, ((a = false \/ b = false /\ c = false) \/ d = false) <-> ~ (a = true /\ (b = true \/ c = true) /\ d = true))
    by (intros [] [] [] []; intuition congruence).
  rewrite !I1, I2, I3, I4. tauto.
Qed.

Local Opaque ser_meta le64 obj.

(** ** Contents *)
Definition subs (sub : list (list N) -> option (option (N * list name_item)) -> fnode -> N -> ecache -> W (N * ecache)) (k : nat) : Prop :=
  forall path t f a c b a' c', storable ev path f -> cache_ok ev c -> sub path (Some (Some t)) f a c = (b, Ok (a', c')) ->
    cache_ok ev c' /\ exists tr, stores ev path f tr /\ arch ev tr b /\ deep k tr /\ dec_tree ff tr.

Lemma wbind_inv {A B} (m : W A) (k : A -> W B) b y : wbind m k = (b, Ok y) ->
  exists b1 x b2, m = (b1, Ok x) /\ k x = (b2, Ok y) /\ b = b1 ++ b2.
Proof.
  destruct m as [b1 [x| | |]]; cbn; intros H; try discriminate. destruct (k x) as [b2 r] eqn:E. cbn in H. injection H as <- ->. eauto 6.
Qed.
Lemma wout_inv {A} b (m : W A) b' y : wout b m = (b', Ok y) -> exists b2, m = (b2, Ok y) /\ b' = b ++ b2.
Proof. destruct m as [b2 r]. unfold wout. cbn. intros [= <- ->]. eauto. Qed.
Lemma wlift_inv {A} (r : res A) b y : wlift r = (b, Ok y) -> b = [] /\ r = Ok y.
Proof. unfold wlift. intros [= <- ->]. auto. Qed.

Lemma update_end_last items i a l : update_end (items ++ [i]) a = Ok l -> l = items ++ [mkNameItem (ni_hash i) (ni_start i) a].
Proof.
  unfold update_end. rewrite rev_app_distr. cbn [rev app]. destruct (_ || _ || _)%bool; [discriminate|]. intros H. apply Ok_inj in H. subst l.
  rewrite rev_involutive. reflexivity.
Qed.

Lemma ents_ok (Q : qsort_ok (ev_qsort ev)) sub full k path dir : subs sub k -> (forall p t f a c, adv_ok (sub p t f a c) a) ->
  forall l eo items a c b a' c', (forall e, In e l -> fst e <> [46] /\ fst e <> [46; 46]) ->
  (forall e, In e l -> is_kept ev path dir e -> is_component (fst e) /\ storable ev (path ++ [fst e]) (snd e)) -> cache_ok ev c ->
  enc_ents ev sub full path dir l (Some (eo, items)) a c = (b, Ok (a', c')) ->
  cache_ok ev c' /\ (full = true -> l = []) /\
  exists ts bb ls gb, b = bb ++ gb /\
    Forall2 (fun x y => fst x = fst y /\ stores ev (path ++ [fst x]) (snd x) (snd y)) (filter (fun e => shall_store ev path dir (fst e) (snd e)) l) ts /\
    arch_ents ev ts bb ls /\ goodbye_of (a + len bb - eo) (map (gitem_of (a + len bb)) items ++ ls) gb /\
    Forall (fun e => deep k (snd e)) ts /\ Forall (fun e => is_component (fst e) /\ dec_tree ff (snd e)) ts.
Proof.
  intros Hs Ha l. induction l as [|[name ch] l IH]; intros eo items a c b a' c' Hc St Ca H.
  - cbn [enc_ents nonempty andb] in H. unfold enc_goodbye in H. apply wbind_inv in H. destruct H as (b1 & x & b2 & H1 & H2 & ->).
    apply wlift_inv in H1. destruct H1 as [-> H1]. apply wout_inv in H2. destruct H2 as (b3 & H2 & ->). injection H2 as <- <- <-.
    split; [exact Ca|]. split; [reflexivity|]. exists [], [], [], x. cbn [app filter]. change (@len N []) with 0.
    rewrite !app_nil_r, !N.add_0_r. split; [reflexivity|]. split; [constructor|]. split; [constructor|]. split; [|split; constructor].
    apply goodbye_arch; [exact Q|exact H1].
  - cbn [enc_ents nonempty andb] in H. destruct full; [discriminate|].
    assert (Dots : name <> [46] /\ name <> [46; 46]) by (apply (Hc (name, ch)); left; reflexivity).
    cbn [filter fst snd]. destruct (shall_store ev path dir name ch) eqn:S.
    + apply wbind_inv in H. destruct H as (b1 & t1 & b2 & H1 & H & ->). apply wlift_inv in H1. destruct H1 as [-> H1].
      unfold table_add in H1. destruct (match items with [] => false | _ => _ end); [discriminate|]. apply Ok_inj in H1. subst t1.
      apply wout_inv in H. destruct H as (b3 & H & ->). apply wbind_inv in H. destruct H as (b4 & [a1 c1] & b5 & H1 & H & ->).
      apply wbind_inv in H. destruct H as (b6 & t2 & b7 & H2 & H & ->). apply wlift_inv in H2. destruct H2 as [-> H2].
      unfold table_end in H2. destruct (update_end _ a1) as [it| | |] eqn:U; cbn [bind] in H2; try discriminate. apply Ok_inj in H2. subst t2.
      apply update_end_last in U. cbn [ni_hash ni_start] in U.
      assert (K : is_kept ev path dir (name, ch)) by (apply kept_iff; [apply Dots|apply Dots|exact S]).
      destruct (St (name, ch) (or_introl eq_refl) K) as [Cm St1]. cbn [fst snd] in Cm, St1.
      pose proof (Ha (path ++ [name]) (Some (Some (eo, items ++ [mkNameItem (ev_hash ev name) a UINT64_MAX]))) ch (a + len (get_filename_data name)) c) as Hadv.
      specialize (Hadv a1 c1). rewrite H1 in Hadv. cbn [fst snd] in Hadv. specialize (Hadv eq_refl).
      apply Hs in H1; [|exact St1|exact Ca]. destruct H1 as (Ca1 & tr & T1 & T2 & T3 & T4).
      apply IH in H; [|intros; apply Hc; right; assumption|intros; apply St; [right|]; assumption|exact Ca1].
      destruct H as (Ca2 & Fl & ts & bb & ls & gb & -> & F2 & A & G & D1 & D2).
      split; [exact Ca2|]. split; [discriminate|].
      exists ((name, tr) :: ts), (get_filename_data name ++ b4 ++ bb),
        (mkGitem (len (get_filename_data name ++ b4 ++ bb)) (len (get_filename_data name ++ b4)) (ev_hash ev name) :: ls), gb.
      split; [cbn [app]; rewrite <- !app_assoc; reflexivity|].
      split; [constructor; [split; [reflexivity|exact T1]|exact F2]|]. split; [apply (arch_cons ev name); assumption|].
      split; [|split; constructor; auto].
      revert G. rewrite U, Hadv. set (S0 := a + len (get_filename_data name) + len b4 + len bb).
      replace (a + len (get_filename_data name ++ b4 ++ bb)) with S0 by (unfold S0; rewrite !len_app; lia).
      rewrite map_app, <- app_assoc. cbn [map app]. unfold gitem_of at 2. cbn [ni_hash ni_start ni_end].
      replace (S0 - a) with (len (get_filename_data name ++ b4 ++ bb)) by (unfold S0; rewrite !len_app; lia).
      replace (a + len (get_filename_data name) + len b4 - a) with (len (get_filename_data name ++ b4)) by (rewrite !len_app; lia). auto.
    + apply IH in H; [|intros; apply Hc; right; assumption|intros; apply St; [right|]; assumption|exact Ca].
      destruct H as (Ca2 & Fl & ts & bb & ls & gb & H). split; [exact Ca2|]. split; [discriminate|]. exists ts, bb, ls, gb. exact H.
Qed.

Lemma sub_adv free p t f a c : adv_ok (sub_of ev free p t f a c) a.
Proof. apply adv_sub. Qed.

Lemma dirents_ok (Q : qsort_ok (ev_qsort ev)) s ents path : NoDup (map fst ents) ->
  forall l, l = read_dirents ev (FDir s ents) ->
  (forall e, In e l <-> In e ents /\ fst e <> [46] /\ fst e <> [46; 46]) /\
  ascending (fun x y => str_lt (fst x) (fst y)) (filter (fun e => shall_store ev path (FDir s ents) (fst e) (snd e)) l).
Proof.
  intros ND l. unfold read_dirents. cbn [f_ents]. set (fl := filter _ ents). intros El.
  destruct (Q _ dirent_cmp fl (orders_str fst)) as [P S]. rewrite <- El in P, S. clear El.
  assert (I : forall e, In e l <-> In e ents /\ fst e <> [46] /\ fst e <> [46; 46]).
  { intros e. transitivity (In e fl); [split; intros H; eapply Permutation_in; try exact H; [apply Permutation_sym|]; exact P|].
    unfold fl. pose proof (filter_In (fun e0 => negb (dot_or_dot_dot (fst e0))) e ents) as Z. cbv beta in Z. rewrite Z, negb_true_iff. clear Z.
    unfold dot_or_dot_dot. rewrite orb_false_iff, !beq_neq. reflexivity. }
  split; [exact I|].
  assert (SS : StronglySorted (fun x y => dirent_cmp x y = Lt) l).
  { apply sorted_strict; [exact S| |].
    - eapply Permutation_NoDup; [exact P|]. unfold fl. apply NoDup_filter. eapply NoDup_map_inv, ND.
    - intros x y Hx Hy E. apply strcmp_eq in E. apply I in Hx, Hy. eapply NoDup_keys; try exact ND; tauto. }
  clear -SS. unfold ascending, str_lt. unfold dirent_cmp in SS.
  induction SS as [|x l S IH F]; cbn [filter]; [constructor|]. destruct (shall_store _ _ _ _ _); [|exact IH]. constructor; [exact IH|].
  rewrite Forall_forall in F |- *. intros y Hy. apply F. apply filter_In in Hy. tauto.
Qed.

Lemma storable_stat path f : storable ev path f -> stat_ok ev (f_stat f) /\ known_type (f_mode f).
Proof.
  unfold known_type, f_mode. intros H. inversion H; subst; cbn [f_stat]; (split; [assumption|]); rewrite ?orb_true_iff in *; tauto.
Qed.

Lemma type_excl m a b : is_type m a = true -> is_type m b = (a =? b).
Proof. apply is_type_inj. Qed.

Lemma file_ok (Q : qsort_ok (ev_qsort ev)) (F : ff_fine ev) : forall k path pt f a c b a' c', pt <> Some None -> storable ev path f -> cache_ok ev c ->
  enc_file ev k path pt f a c = (b, Ok (a', c')) ->
  cache_ok ev c' /\ exists tr, stores ev path f tr /\ arch ev tr b /\ deep k tr /\ dec_tree ff tr.
Proof.
  induction k as [k IHk] using (well_founded_induction Wf_nat.lt_wf). intros path pt f a c b a' c' Hpt St Ca H.
  assert (Hsub : (0 < k)%nat -> subs (sub_of ev k) (pred k)).
  { intros Hk. destruct k as [|k]; [lia|]. cbn [sub_of pred]. intros p t g a0 c0 b0 a0' c0' St0 Ca0 H0.
    eapply IHk; [apply Nat.lt_succ_diag_r| |exact St0|exact Ca0|exact H0]. discriminate. }
  clear IHk. rewrite enc_file_eq in H.
  destruct (storable_stat _ _ St) as [So Kt].
  destruct (match pt with Some _ => f_mode f =? 0 | None => false end); [discriminate|].
  apply wbind_inv in H. destruct H as (b1 & [b2 c1] & b3 & H1 & H & ->). apply wlift_inv in H1. destruct H1 as [-> H1].
  apply wout_inv in H. destruct H as (b4 & H & ->).
  unfold get_entry_data in H1. destruct (entry_meta ev c (f_stat f)) as [[m c2]| | |] eqn:E; cbn [bind] in H1; try discriminate.
  apply Ok_inj in H1. injection H1 as <- <-.
  destruct (meta_ok ev Q F c (f_stat f) m c2 Ca So Kt E) as (Ca2 & Ms & Df & Mm & Ts).
  assert (Tm : forall t, is_type (m_mode m) t = is_type (f_mode f) t) by (intros t; rewrite Mm; apply type_fixup).
  clear E. cbn [app].
  destruct f as [s size data|s ents|s tg|s x y|s]; cbn [f_stat] in *; unfold f_mode in Tm; cbn [f_stat] in Tm; inversion St; subst;
    unfold enc_content, ser_tail, shall_enumerate, f_mode in *; cbn [f_stat f_target f_dev f_size f_data fst snd] in *.
  - (* regular file *)
    match goal with H : S_ISREG _ = true |- _ => rename H into R end. rewrite R in H |- *. cbn [negb andb] in H |- *. rewrite ?andb_false_r in *.
    assert (Dn : S_ISDIR (st_mode s) = false) by (unfold S_ISREG, S_ISDIR in *; rewrite (is_type_inj _ _ _ R); reflexivity).
    assert (Rm : S_ISREG (m_mode m) = true) by (unfold S_ISREG in *; rewrite Tm; exact R).
    destruct (fs_virtual s) eqn:V; cbn [negb] in H |- *.
    + rewrite Dn in H. unfold wret in H. injection H as <- <- <-. rewrite app_nil_r. split; [exact Ca2|].
      pose proof (stores_reg ev path s size data m Ms) as Z. rewrite V in Z. eexists. split; [exact Z|]. split; [|split; constructor; assumption].
      rewrite N.add_0_r. pose proof (arch_reg ev m []) as Y. rewrite ?app_nil_r in *. exact Y.
    + unfold enc_pay, can_read, enc_payload in H. cbn [f_size f_data] in H. destruct (N.leb_spec size (len data)) as [L | L]; [|discriminate].
      apply wout_inv in H. destruct H as (b5 & H & ->). unfold wret in H. injection H as <- <- <-. rewrite N.sub_0_r, dropN_0, app_nil_r. split; [exact Ca2|].
      pose proof (stores_reg ev path s size data m Ms) as Z. rewrite V in Z. eexists. split; [exact Z|]. split; [|split; constructor; assumption].
      pose proof (arch_reg ev m (takeN size data)) as Y. rewrite len_takeN, N.min_l in Y by exact L. rewrite <- !app_assoc. exact Y.
  - (* directory *)
    match goal with H : S_ISDIR _ = true |- _ => rename H into R end.
    assert (Dn : S_ISREG (st_mode s) = false /\ S_ISLNK (st_mode s) = false /\ S_ISBLK (st_mode s) = false /\ S_ISCHR (st_mode s) = false)
      by (unfold S_ISREG, S_ISDIR, S_ISLNK, S_ISBLK, S_ISCHR in *; rewrite !(is_type_inj _ _ _ R); auto).
    destruct Dn as (D1 & D2 & D3 & D4).
    assert (Rm : S_ISDIR (m_mode m) = true) by (unfold S_ISDIR in *; rewrite Tm; exact R).
    rewrite D1, D2, D3, D4 in *. rewrite R in H. cbn [negb andb orb] in H |- *. rewrite app_nil_r in *.
    assert (Tb : new_table pt (FDir s ents) a = Some (a, [])).
    { unfold new_table, f_mode. cbn [f_stat]. rewrite R. cbn [negb]. destruct pt as [[t|]|]; [reflexivity|congruence|reflexivity]. }
    rewrite Tb in H. clear Tb.
    destruct (fs_virtual s) eqn:V; cbn [negb] in H.
    + unfold enc_goodbye in H. apply wbind_inv in H. destruct H as (g1 & x & g2 & G1 & G2 & ->). apply wlift_inv in G1. destruct G1 as [-> G1].
      apply wout_inv in G2. destruct G2 as (g3 & G2 & ->). unfold wret in G2. injection G2 as <- <- <-. split; [exact Ca2|].
      exists (TDir m []). split; [apply stores_virtual; assumption|]. cbn [goodbye] in G1. apply (goodbye_arch Q) in G1.
      split; [|split; [constructor|constructor; auto]]. cbn [app]. rewrite app_nil_r.
      pose proof (arch_dir ev m [] [] [] x (arch_nil ev)) as Y. cbn [app] in Y. apply Y. rewrite app_nil_r.
      replace (a + len (ser_meta ev m) - a) with (len (ser_meta ev m)) in G1 by lia. exact G1.
    + destruct (dirents_ok Q s ents path ltac:(assumption) _ eq_refl) as [I As].
      assert (P : exists sub' k', enc_ents ev sub' (is_full k) path (FDir s ents) (read_dirents ev (FDir s ents)) (Some (a, [])) (a + len (ser_meta ev m)) c2 = (b4, Ok (a', c')) /\
        subs sub' k' /\ (forall p t f a c, adv_ok (sub' p t f a c) a) /\ (is_full k = false -> k = S k')).
      { destruct k as [|k].
        - exists (fun _ _ _ _ _ => ([], Err EIO)), O. split.
          + cbn [is_full] in *. destruct (read_dirents ev (FDir s ents)) as [|[? ?] ?]; [exact H|discriminate].
          + split; [intros p t g ? ? ? ? ? _ _ Z; discriminate|]. split; [intros; intros ? ? Z; discriminate|]. discriminate.
        - exists (sub_of ev (S k)), k. split; [exact H|]. split; [apply Hsub; lia|]. split; [intros; apply adv_sub|]. auto. }
      destruct P as (sub' & k' & H' & Hs' & Ha' & Hk'). clear H Hsub.
      apply (ents_ok Q sub' (is_full k) k' path (FDir s ents) Hs' Ha') in H'; [| |intros e He K|exact Ca2].
      2:{ intros e He. apply I in He. tauto. }
      2:{ apply I in He. match goal with X : forall e, In e ents -> _ |- _ => apply X; [tauto|exact K] end. }
      destruct H' as (Ca3 & Fl & ts & bb & ls & gb & -> & F2 & A & G & Dp & Dc). split; [exact Ca3|]. exists (TDir m ts).
      split; [eapply stores_dir; [exact V|exact Ms| |exact As|exact F2]|].
      { intros e. pose proof (filter_In (fun e0 => shall_store ev path (FDir s ents) (fst e0) (snd e0)) e (read_dirents ev (FDir s ents))) as Z. cbv beta in Z.
        rewrite Z, I. clear Z. destruct e as [n ch]. cbn [fst snd]. split.
        - intros ((A1 & A2 & A3) & A4). split; [exact A1|]. apply kept_iff; assumption.
        - intros (A1 & A2). assert (A3 := A2). destruct A3 as (A3 & A4 & _). cbn [fst] in A3, A4. split; [auto|]. apply kept_iff; assumption. }
      split; [|split; [|constructor; auto]].
      * eapply arch_dir; [exact A|]. rewrite len_app. cbn [map app] in G.
        replace (a + len (ser_meta ev m) + len bb - a) with (len (ser_meta ev m) + len bb) in G by lia. exact G.
      * destruct (is_full k) eqn:Ek.
        -- rewrite (Fl eq_refl) in F2. cbn [filter] in F2. inversion F2; subst. constructor.
        -- rewrite (Hk' eq_refl). constructor. exact Dp.
  - (* symlink *)
    match goal with H : S_ISLNK _ = true |- _ => rename H into R end.
    assert (Dn : S_ISREG (st_mode s) = false /\ S_ISDIR (st_mode s) = false)
      by (unfold S_ISREG, S_ISDIR, S_ISLNK in *; rewrite !(is_type_inj _ _ _ R); auto).
    destruct Dn as (D1 & D2). rewrite D1, D2, R in *. cbn [negb andb] in H. unfold wret in H. injection H as <- <- <-. rewrite app_nil_r. split; [exact Ca2|].
    exists (TLnk m tg). split; [constructor; exact Ms|]. split; [constructor|]. split; [constructor|].
    assert (Rm : S_ISLNK (m_mode m) = true) by (unfold S_ISLNK in *; rewrite Tm; exact R).
    constructor; auto. unfold type_stored in Ts. rewrite R in Ts. change (ev_ff ev) with ff in Ts. destruct (has ff WITH_SYMLINKS); [reflexivity|discriminate].
  - (* device *)
    match goal with H : (S_ISBLK _ || S_ISCHR _)%bool = true |- _ => rename H into R end.
    assert (Dn : S_ISREG (st_mode s) = false /\ S_ISDIR (st_mode s) = false /\ S_ISLNK (st_mode s) = false)
      by (unfold S_ISREG, S_ISDIR, S_ISLNK, S_ISBLK, S_ISCHR in *; apply orb_true_iff in R; destruct R as [R | R]; rewrite !(is_type_inj _ _ _ R); auto).
    destruct Dn as (D1 & D2 & D3). rewrite D1, D2, D3, R in *. cbn [negb andb] in H. unfold wret in H. injection H as <- <- <-. rewrite app_nil_r. split; [exact Ca2|].
    exists (TDev m x y). split; [constructor; exact Ms|]. split; [constructor|]. split; [constructor|].
    assert (Rm : (S_ISBLK (m_mode m) || S_ISCHR (m_mode m))%bool = true) by (unfold S_ISBLK, S_ISCHR in *; rewrite !Tm; exact R).
    constructor; auto. unfold type_stored in Ts. rewrite D3, R in Ts. rewrite andb_false_r in Ts. change (ev_ff ev) with ff in Ts.
    destruct (has ff WITH_DEVICE_NODES); [reflexivity|discriminate].
  - (* FIFO, socket *)
    match goal with H : (S_ISFIFO _ || S_ISSOCK _)%bool = true |- _ => rename H into R end.
    assert (Dn : S_ISREG (st_mode s) = false /\ S_ISDIR (st_mode s) = false /\ S_ISLNK (st_mode s) = false /\ S_ISBLK (st_mode s) = false /\ S_ISCHR (st_mode s) = false)
      by (unfold S_ISREG, S_ISDIR, S_ISLNK, S_ISBLK, S_ISCHR, S_ISFIFO, S_ISSOCK in *; apply orb_true_iff in R; destruct R as [R | R]; rewrite !(is_type_inj _ _ _ R); auto).
    destruct Dn as (D1 & D2 & D3 & D4 & D5). rewrite D1, D2, D3, D4, D5 in *. cbn [negb andb orb] in H |- *. unfold wret in H. injection H as <- <- <-. rewrite !app_nil_r. split; [exact Ca2|].
    exists (TOther m). split; [constructor; exact Ms|]. split; [constructor|]. split; [constructor|].
    assert (Rm : (S_ISFIFO (m_mode m) || S_ISSOCK (m_mode m))%bool = true) by (unfold S_ISFIFO, S_ISSOCK in *; rewrite !Tm; exact R).
    constructor; auto.
Qed.
End Tree.
