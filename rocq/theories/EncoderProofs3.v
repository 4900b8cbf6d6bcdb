(** The archive doesn't depend on the order of listings and on the sorting routine. *)
From Coq Require Import Sorted Permutation.
From Verif Require Import Base FeatureFlags ArchiveBase Bst Encoder EncoderSpec EncoderProofs EncoderProofs2 DecoderProofs5.
Local Open Scope N_scope.

(** ** Offsets *)
Definition adv_ok (m : W (N * ecache)) (a : N) : Prop :=
  forall a' c', snd m = Ok (a', c') -> a' = a + len (fst m).

Lemma adv_ret a c : adv_ok (wret (a, c)) a.
Proof. intros a' c' H. injection H as <- <-. cbn. change (len (@nil N)) with 0. lia. Qed.
Lemma adv_wout b m a : adv_ok m (a + len b) -> adv_ok (wout b m) a.
Proof. intros H a' c' E. cbn in E. apply H in E. cbn [wout fst]. rewrite len_app. lia. Qed.
Lemma adv_bind m k a : adv_ok m a -> (forall a' c', snd m = Ok (a', c') -> adv_ok (k (a', c')) a') -> adv_ok (wbind m k) a.
Proof.
  intros H1 H2 a' c' E. destruct m as [b [[a1 c1]|e| |]]; cbn in *; try discriminate.
  specialize (H2 a1 c1 eq_refl). specialize (H1 a1 c1 eq_refl). cbn in H1. destruct (k (a1, c1)) as [b2 r2] eqn:K. cbn in *.
  specialize (H2 a' c' E). cbn in H2. rewrite len_app. lia.
Qed.
Lemma adv_lift {A} (r : res A) k a : (forall x, r = Ok x -> adv_ok (k x) a) -> adv_ok (wbind (wlift r) k) a.
Proof.
  intros H a' c' E. destruct r as [x|e| |]; try discriminate. rewrite wbind_lift_ok in *. eapply H; eauto.
Qed.
Lemma adv_err e a : adv_ok ([], Err e) a.
Proof. intros ? ? H. discriminate. Qed.

Lemma adv_goodbye ev t a c : adv_ok (enc_goodbye ev t a c) a.
Proof. apply adv_lift. intros b _. apply adv_wout, adv_ret. Qed.
Lemma adv_ents ev sub full path dir : (forall p t f a c, adv_ok (sub p t f a c) a) ->
  forall l t a c, adv_ok (enc_ents ev sub full path dir l t a c) a.
Proof.
  intros Hs l. induction l as [|[name ch] l IH]; intros t a c; cbn [enc_ents].
  - cbn [nonempty andb]. apply adv_goodbye.
  - destruct (_ && _)%bool; [apply adv_err|]. destruct (shall_store _ _ _ _ _); [|apply IH].
    apply adv_lift. intros t' _. apply adv_wout. apply adv_bind; [apply Hs|]. intros a' c' _. apply adv_lift. intros; apply IH.
Qed.
Lemma adv_pay f po a c : po <= f_size f -> adv_ok (enc_pay f po a c) a.
Proof.
  intros Hp. unfold enc_pay. destruct (can_read f) eqn:R; [|intros ? ? H; discriminate].
  unfold can_read in R. apply N.leb_le in R.
  intros a' c' E. cbn in E. injection E as <- <-. cbn. rewrite app_nil_r. unfold enc_payload. rewrite len_takeN, len_dropN. lia.
Qed.
Lemma adv_content ev sub full path t f a c : (forall p t f a c, adv_ok (sub p t f a c) a) ->
  adv_ok (enc_content ev sub full path t f a c) a.
Proof.
  intros Hs. unfold enc_content. destruct (shall_enumerate f).
  - destruct (S_ISREG _); [apply adv_pay; lia|]. destruct (S_ISDIR _); [apply adv_ents, Hs|apply adv_ret].
  - destruct (S_ISDIR _); [apply adv_goodbye|apply adv_ret].
Qed.
Lemma adv_file ev free : forall p t f a c, adv_ok (enc_file ev free p t f a c) a.
Proof.
  induction free as [|free IH]; intros p t f a c; rewrite enc_file_eq; destruct (match t with Some _ => _ | None => _ end); try apply adv_err;
    apply adv_lift; intros [b c'] _; apply adv_wout, adv_content.
  - intros. apply adv_ret.
  - exact IH.
Qed.
Lemma adv_sub ev free p t f a c : adv_ok (sub_of ev free p t f a c) a.
Proof. destruct free; [apply adv_ret|apply adv_file]. Qed.

(** ** Sorting *)
Lemma sorted_unique {A} (R : A -> A -> Prop) l1 : forall l2,
  StronglySorted R l1 -> StronglySorted R l2 -> Permutation l1 l2 ->
  (forall x y, In x l1 -> In y l1 -> R x y -> R y x -> x = y) -> l1 = l2.
Proof.
  induction l1 as [|x l1 IH]; intros l2 S1 S2 P An.
  - apply Permutation_nil in P. congruence.
  - destruct l2 as [|y l2]; [apply Permutation_sym, Permutation_nil in P; discriminate|].
    assert (E : x = y).
    { assert (I1 : In y (x :: l1)) by (eapply Permutation_in; [apply Permutation_sym, P|left; reflexivity]).
      assert (I2 : In x (y :: l2)) by (eapply Permutation_in; [exact P|left; reflexivity]).
      destruct I1 as [I1 | I1]; [exact I1|]. destruct I2 as [I2 | I2]; [auto|].
      apply An; [left; reflexivity|right; exact I1| |].
      - inversion S1 as [|? ? ? F]; subst. rewrite Forall_forall in F. auto.
      - inversion S2 as [|? ? ? F]; subst. rewrite Forall_forall in F. auto. }
    subst y. f_equal. inversion S1; inversion S2; subst. apply IH; auto.
    + eapply Permutation_cons_inv, P.
    + intros. apply An; auto; right; auto.
Qed.

Lemma qsort_unique q1 q2 {A} (cmp : A -> A -> comparison) l1 l2 : qsort_ok q1 -> qsort_ok q2 -> orders cmp -> Permutation l1 l2 ->
  (forall x y, In x l1 -> In y l1 -> cmp x y = Eq -> x = y) -> q1 A cmp l1 = q2 A cmp l2.
Proof.
  intros Q1 Q2 O P An. destruct (Q1 A cmp l1 O) as [P1 S1], (Q2 A cmp l2 O) as [P2 S2].
  eapply sorted_unique; eauto.
  - rewrite <- P1, P. exact P2.
  - intros x y Hx Hy Rx Ry. apply An; try (eapply Permutation_in; [apply Permutation_sym, P1|assumption]).
    cbv beta in *. destruct O as (_ & O & _). rewrite (O x y) in Ry. destruct (cmp x y); auto; cbn in *; congruence.
Qed.

Lemma orders_of {A} (cmp : A -> A -> comparison) : (forall x, cmp x x = Eq) -> (forall x y, cmp y x = CompOpp (cmp x y)) ->
  (forall x y z, cmp x y = Lt -> cmp y z = Lt -> cmp x z = Lt) ->
  (forall x y z, cmp x y = Eq -> cmp y z = cmp x z) -> orders cmp.
Proof.
  intros H1 H2 H3 H4. split; [exact H1|]. split; [exact H2|]. intros x y z A1 A2.
  destruct (cmp x y) eqn:E1; [|destruct (cmp y z) eqn:E2|]; try congruence.
  - rewrite <- (H4 x y z E1). exact A2.
  - assert (E3 : cmp z y = Eq) by (rewrite H2, E2; reflexivity).
    assert (E4 := H4 z y x E3). rewrite (H2 z x), <- E4, (H2 x y), E1. discriminate.
  - rewrite (H3 x y z E1 E2). discriminate.
Qed.

Lemma orders_acl : orders acl_cmp.
Proof.
  apply orders_of.
  - intros [i n p]. unfold acl_cmp. cbn. rewrite N.compare_refl. destruct n; [rewrite strcmp_refl|]; apply N.compare_refl.
  - intros x y. apply acl_cmp_antisym.
  - intros x y z. apply acl_cmp_trans.
  - intros x y z H. apply acl_cmp_eq in H. subst. reflexivity.
Qed.
Lemma orders_str {A} (key : A -> list N) : orders (fun a b => strcmp (key a) (key b)).
Proof.
  apply orders_of.
  - intros x. apply strcmp_refl.
  - intros x y. apply strcmp_antisym.
  - intros x y z. apply strcmp_trans.
  - intros x y z H. apply strcmp_eq in H. rewrite H. reflexivity.
Qed.
Lemma orders_item : orders name_item_cmp.
Proof.
  apply orders_of; unfold name_item_cmp.
  - intros x. rewrite !N.compare_refl. reflexivity.
  - intros x y. rewrite (N.compare_antisym (ni_hash x) (ni_hash y)), (N.compare_antisym (ni_start x) (ni_start y)).
    destruct (ni_hash x ?= ni_hash y); reflexivity.
  - intros x y z. destruct (N.compare_spec (ni_hash x) (ni_hash y)) as [E1|L1|L1]; try discriminate;
      destruct (N.compare_spec (ni_hash y) (ni_hash z)) as [E2|L2|L2]; try discriminate;
      destruct (N.compare_spec (ni_hash x) (ni_hash z)) as [E3|L3|L3]; try lia; try reflexivity.
    rewrite !N.compare_lt_iff. lia.
  - intros x y z. destruct (N.compare_spec (ni_hash x) (ni_hash y)) as [E1|L1|L1]; try discriminate.
    intros H. apply N.compare_eq in H. rewrite E1, H. reflexivity.
Qed.

(** ** The same environment but for the sorting routine *)
Definition with_qsort (ev : eenv) (q : forall A : Type, (A -> A -> comparison) -> list A -> list A) : eenv :=
  mkEenv (ev_ff ev) (ev_gran ev) (ev_shift ev) (ev_range ev) (ev_pw ev) (ev_gr ev) (ev_hash ev) (ev_excl ev) q.

Section Same.
Variables (ev : eenv) (q : forall A : Type, (A -> A -> comparison) -> list A -> list A).
Let ev' := with_qsort ev q.
Hypotheses (Q : qsort_ok (ev_qsort ev)) (Q' : qsort_ok q).

Lemma same_process_acl l : process_acl ev l = process_acl ev' l.
Proof.
  unfold process_acl. change (process_acl_entries ev' acl_acc0 l) with (process_acl_entries ev acl_acc0 l).
  destruct (process_acl_entries ev acl_acc0 l) as [a| | |]; cbn [bind]; try reflexivity.
  change (ev_qsort ev') with q.
  rewrite (qsort_unique (ev_qsort ev) q acl_cmp (aa_users a) (aa_users a)), (qsort_unique (ev_qsort ev) q acl_cmp (aa_groups a) (aa_groups a));
    auto using orders_acl, Permutation_refl; intros; apply acl_cmp_eq; assumption.
Qed.

Lemma NoDup_keys {A B} (l : list (A * B)) x y : NoDup (map fst l) -> In x l -> In y l -> fst x = fst y -> x = y.
Proof.
  induction l as [|z l IH]; [contradiction|]. cbn. intros N Hx Hy E. inversion N as [|? ? N1 N2]; subst.
  destruct Hx as [-> | Hx], Hy as [-> | Hy]; auto.
  - exfalso. apply N1. rewrite E. apply in_map. exact Hy.
  - exfalso. apply N1. rewrite <- E. apply in_map. exact Hx.
Qed.

Lemma find_perm {A B} (p : A -> bool) (l1 l2 : list (A * B)) : Permutation l1 l2 -> NoDup (map fst l1) ->
  (forall a b, p a = true -> p b = true -> a = b) ->
  find (fun x => p (fst x)) l1 = find (fun x => p (fst x)) l2.
Proof.
  intros P N U.
  destruct (find _ l1) as [x|] eqn:F1; destruct (find (fun x => p (fst x)) l2) as [y|] eqn:F2; auto.
  - apply find_some in F1 as [I1 T1]. apply find_some in F2 as [I2 T2]. f_equal.
    eapply NoDup_keys; eauto. eapply Permutation_in; [apply Permutation_sym, P|exact I2].
  - apply find_some in F1 as [I1 T1]. exfalso. rewrite (find_none _ _ F2 x) in T1; [discriminate|]. eapply Permutation_in; eauto.
  - apply find_some in F2 as [I2 T2]. exfalso. rewrite (find_none _ _ F1 y) in T2; [discriminate|].
    eapply Permutation_in; [apply Permutation_sym, P|exact I2].
Qed.

Lemma perm_filter {A} (f : A -> bool) a b : Permutation a b -> Permutation (filter f a) (filter f b).
Proof.
  induction 1 as [|x a b H IH|x y a|a b c H1 IH1 H2 IH2]; cbn [filter].
  - constructor.
  - destruct (f x); [constructor|]; exact IH.
  - destruct (f x), (f y); try apply Permutation_refl; apply perm_swap.
  - etransitivity; eassumption.
Qed.

Lemma same_read_xattrs s s' : same_stat s s' -> NoDup (map fst (fs_xattrs s)) -> read_xattrs ev s = read_xattrs ev' s'.
Proof.
  intros S N. unfold read_xattrs. change (ev_ff ev') with (ev_ff ev). rewrite <- (ss_mode _ _ S).
  destruct (negb _); [reflexivity|]. destruct (S_ISLNK _); [reflexivity|]. f_equal.
  - change (ev_qsort ev') with q. apply qsort_unique; auto.
    + apply (orders_str fst).
    + apply perm_filter, (ss_xattrs _ _ S).
    + intros x y Hx Hy E. apply filter_In in Hx as [Hx _]. apply filter_In in Hy as [Hy _].
      apply strcmp_eq in E. eapply NoDup_keys; eauto.
  - destruct (S_ISREG _); [|reflexivity]. f_equal. apply (find_perm (fun n => beq n str_security_capability)); auto; [apply (ss_xattrs _ _ S)|].
    intros a b A B. apply beq_eq in A, B. congruence.
Qed.

Lemma same_entry_meta c s s' : same_stat s s' -> NoDup (map fst (fs_xattrs s)) -> entry_meta ev c s = entry_meta ev' c s'.
Proof.
  intros S N. unfold entry_meta. rewrite (same_read_xattrs s s' S N).
  change (ev_ff ev') with (ev_ff ev).
  rewrite <- (same_process_acl (fs_acl s')), <- (same_process_acl (fs_default_acl s')).
  assert (E1 : read_names ev' c s' = read_names ev c s).
  { unfold read_names. change (ev_ff ev') with (ev_ff ev). rewrite <- (ss_mode _ _ S), <- (ss_uid _ _ S), <- (ss_gid _ _ S). reflexivity. }
  assert (E2 : entry_ids ev' s' = entry_ids ev s).
  { unfold entry_ids. change (ev_ff ev') with (ev_ff ev). rewrite <- (ss_uid _ _ S), <- (ss_gid _ _ S). reflexivity. }
  assert (E3 : entry_flags ev' s' = entry_flags ev s).
  { unfold entry_flags. change (ev_ff ev') with (ev_ff ev).
    rewrite <- (ss_mode _ _ S), <- (ss_chattr _ _ S), <- (ss_fat _ _ S), <- (ss_subvol _ _ S), <- (ss_subvol_ro _ _ S). reflexivity. }
  rewrite E1, E2, E3. change (ev_gran ev') with (ev_gran ev).
  rewrite <- (ss_mode _ _ S), <- (ss_uid _ _ S), <- (ss_gid _ _ S), <- (ss_sec _ _ S), <- (ss_nsec _ _ S), <- (ss_selinux _ _ S),
    <- (ss_acl _ _ S), <- (ss_dacl _ _ S), <- (ss_projid _ _ S).
  reflexivity.
Qed.

Lemma same_tree_stat f f' : same_tree f f' -> same_stat (f_stat f) (f_stat f').
Proof. intros H. destruct H; assumption. Qed.
Lemma same_tree_mode f f' : same_tree f f' -> f_mode f = f_mode f'.
Proof. intros H. apply (ss_mode _ _ (same_tree_stat _ _ H)). Qed.
Lemma distinct_stat f : distinct_names f -> NoDup (map fst (fs_xattrs (f_stat f))).
Proof. intros H. destruct H; assumption. Qed.

Lemma same_enumerate f f' : same_tree f f' -> shall_enumerate f = shall_enumerate f'.
Proof.
  intros H. unfold shall_enumerate. rewrite (same_tree_mode _ _ H), (ss_virtual _ _ (same_tree_stat _ _ H)). reflexivity.
Qed.

Lemma same_entry_data c f f' : same_tree f f' -> distinct_names f -> get_entry_data ev c f = get_entry_data ev' c f'.
Proof.
  intros H D. unfold get_entry_data. rewrite (same_entry_meta c _ _ (same_tree_stat _ _ H) (distinct_stat _ D)).
  destruct (entry_meta ev' c (f_stat f')) as [[m c2]| | |]; cbn [bind]; try reflexivity.
  assert (T : ser_tail f = ser_tail f').
  { unfold ser_tail. rewrite (same_tree_mode _ _ H), (same_enumerate _ _ H). destruct H; reflexivity. }
  rewrite T. reflexivity.
Qed.

Lemma same_shall_store path d d' name ch ch' : same_stat (f_stat d) (f_stat d') -> same_tree ch ch' ->
  shall_store ev path d name ch = shall_store ev' path d' name ch'.
Proof.
  intros D H. assert (S := same_tree_stat _ _ H). unfold shall_store. change (ev_ff ev') with (ev_ff ev). change (ev_excl ev') with (ev_excl ev).
  rewrite (same_tree_mode _ _ H), (ss_chattr _ _ S), (ss_mount_id _ _ S), (ss_mount_id _ _ D). reflexivity.
Qed.

Definition same_ents (x y : list N * fnode) : Prop := fst x = fst y /\ same_tree (snd x) (snd y).

Lemma Forall2_filter l1 l2 (p : list N -> bool) : Forall2 same_ents l1 l2 ->
  Forall2 same_ents (filter (fun e => p (fst e)) l1) (filter (fun e => p (fst e)) l2).
Proof.
  induction 1 as [|x y l1 l2 [H1 H2] F IH]; [constructor|]. cbn. rewrite <- H1. destruct (p (fst x)); [|exact IH].
  constructor; [split; assumption|exact IH].
Qed.

Lemma same_dirents f f' : same_tree f f' -> distinct_names f ->
  Forall2 same_ents (read_dirents ev f) (read_dirents ev' f') /\ Forall (fun x => distinct_names (snd x)) (read_dirents ev f).
Proof.
  intros H D. unfold read_dirents. change (ev_qsort ev') with q.
  destruct H as [s s' size data|s s' ents mid ents' S P F|s s' t|s s' x y|s s'];
    try (destruct (Q _ dirent_cmp [] (orders_str fst)) as [P1 _]; destruct (Q' _ dirent_cmp [] (orders_str fst)) as [P2 _];
         cbn [f_ents filter]; apply Permutation_nil in P1, P2; rewrite P1, P2; split; constructor).
  cbn [f_ents]. inversion D as [? ? N1 N2 N3| | | |]; subst.
  set (p := fun n : list N => negb (dot_or_dot_dot n)).
  change (fun e : list N * fnode => negb (dot_or_dot_dot (fst e))) with (fun e : list N * fnode => p (fst e)).
  destruct (Q _ dirent_cmp (filter (fun e => p (fst e)) ents) (orders_str fst)) as [P1 S1].
  destruct (Q' _ dirent_cmp (filter (fun e => p (fst e)) ents') (orders_str fst)) as [P2 S2].
  set (l1 := ev_qsort ev _ dirent_cmp (filter (fun e => p (fst e)) ents)) in *.
  set (l2 := q _ dirent_cmp (filter (fun e => p (fst e)) ents')) in *.
  assert (F0 : Forall2 (fun y x => same_ents x y) (filter (fun e => p (fst e)) ents') (filter (fun e => p (fst e)) mid)).
  { assert (F1 := Forall2_filter _ _ p F). clear -F1. induction F1; constructor; auto. }
  destruct (Permutation_Forall2 P2 F0) as (l3 & P3 & F3).
  assert (E : l1 = l3).
  { eapply sorted_unique with (R := fun x y => dirent_cmp x y <> Gt).
    - exact S1.
    - clear -F3 S2. induction F3 as [|y x l2 l3 [H1 _] F3 IH]; [constructor|]. inversion S2 as [|? ? S3 Fa]; subst.
      constructor; [auto|]. clear IH S2 S3. induction F3 as [|y2 x2 l2 l3 [H2 _] F3 IH]; [constructor|].
      inversion Fa; subst. constructor; [|auto]. unfold dirent_cmp in *. rewrite H1, H2. assumption.
    - rewrite <- P1. rewrite (perm_filter _ _ _ P). exact P3.
    - intros x y Hx Hy R1 R2. apply (NoDup_keys ents); auto.
      + apply Permutation_sym in P1. apply (Permutation_in _ P1) in Hx. apply filter_In in Hx. tauto.
      + apply Permutation_sym in P1. apply (Permutation_in _ P1) in Hy. apply filter_In in Hy. tauto.
      + unfold dirent_cmp in *. rewrite strcmp_antisym in R2. apply strcmp_eq. destruct (strcmp (fst x) (fst y)); auto; cbn in *; congruence. }
  split.
  - rewrite E. clear -F3. induction F3; constructor; auto.
  - rewrite Forall_forall in *. intros x Hx. apply N3. apply Permutation_sym in P1. apply (Permutation_in _ P1) in Hx. apply filter_In in Hx. tauto.
Qed.

(** ** Goodbye records *)
Definition starts_ok (t : option (N * list name_item)) (a : N) : Prop :=
  match t with None => True | Some (_, items) => NoDup (map ni_start items) /\ Forall (fun i => ni_start i < a) items end.

Lemma NoDup_starts (l : list name_item) x y : NoDup (map ni_start l) -> In x l -> In y l -> ni_start x = ni_start y -> x = y.
Proof.
  induction l as [|z l IH]; [contradiction|]. cbn. intros N Hx Hy E. inversion N as [|? ? N1 N2]; subst.
  destruct Hx as [-> | Hx], Hy as [-> | Hy]; auto.
  - exfalso. apply N1. rewrite E. apply in_map. exact Hy.
  - exfalso. apply N1. rewrite <- E. apply in_map. exact Hx.
Qed.

Lemma same_goodbye t a : starts_ok t a -> goodbye ev t a = goodbye ev' t a.
Proof.
  intros S. unfold goodbye. destruct t as [[eo items]|]; [|reflexivity]. destruct S as [S1 _].
  unfold get_goodbye_data. change (ev_qsort ev') with q. unfold name_table_make_bst.
  rewrite (qsort_unique (ev_qsort ev) q name_item_cmp items items); auto using orders_item, Permutation_refl.
  intros x y Hx Hy E. apply (NoDup_starts items); auto. unfold name_item_cmp in E.
  destruct (ni_hash x ?= ni_hash y); try discriminate. apply N.compare_eq, E.
Qed.

Lemma starts_le t a b : a <= b -> starts_ok t a -> starts_ok t b.
Proof.
  destruct t as [[eo items]|]; [|auto]. intros H [S1 S2]. split; [exact S1|]. eapply Forall_impl; [|exact S2]. cbn. intros; lia.
Qed.
Lemma starts_add t name a t' : table_add ev t name a = Ok t' -> starts_ok t a -> starts_ok t' (a + 1).
Proof.
  unfold table_add. destruct t as [[eo items]|]; [|intros E; injection E as <-; auto].
  destruct (match items with [] => false | _ => _ end); [discriminate|]. intros E; injection E as <-. intros [S1 S2].
  split.
  - rewrite map_app. apply NoDup_Add with (a := a) (l := map ni_start items); [|split; [exact S1|]].
    + cbn. assert (X := Add_app a (map ni_start items) []). rewrite app_nil_r in X. exact X.
    + intros I. apply in_map_iff in I as (x & E & I). rewrite Forall_forall in S2. apply S2 in I. lia.
  - apply Forall_app. split; [eapply Forall_impl; [|exact S2]; cbn; intros; lia|]. constructor; [cbn; lia|constructor].
Qed.
Lemma starts_end t a t' : table_end t a = Ok t' -> forall b, starts_ok t b -> starts_ok t' b.
Proof.
  unfold table_end. destruct t as [[eo items]|]; [|intros E; injection E as <-; auto].
  unfold update_end. destruct (rev items) as [|i r] eqn:R.
  - cbn. intros E; injection E as <-. intros b _. split; constructor.
  - destruct (_ || _)%bool; [discriminate|]. cbn. intros E; injection E as <-. intros b [S1 S2].
    assert (Ei : items = rev r ++ [i]) by (rewrite <- (rev_involutive items), R; reflexivity).
    rewrite Ei in S1, S2. split.
    + rewrite map_app in *. exact S1.
    + apply Forall_app in S2 as [S2 S3]. apply Forall_app. split; [exact S2|]. inversion S3; subst. constructor; [assumption|constructor].
Qed.

Lemma same_enc_goodbye t a c : starts_ok t a -> enc_goodbye ev t a c = enc_goodbye ev' t a c.
Proof. intros S. unfold enc_goodbye. rewrite (same_goodbye t a S). reflexivity. Qed.

Section Ents.
Variables sub sub' : list (list N) -> option (option (N * list name_item)) -> fnode -> N -> ecache -> W (N * ecache).
Hypothesis Hsub : forall p t f f' a c, same_tree f f' -> distinct_names f -> sub p t f a c = sub' p t f' a c.
Hypothesis Hadv : forall p t f a c, adv_ok (sub p t f a c) a.

Lemma same_enc_ents full path dir dir' : same_stat (f_stat dir) (f_stat dir') -> forall l l', Forall2 same_ents l l' ->
  Forall (fun x => distinct_names (snd x)) l ->
  forall t a c, starts_ok t a -> enc_ents ev sub full path dir l t a c = enc_ents ev' sub' full path dir' l' t a c.
Proof.
  intros Sd l l' F. induction F as [|[n ch] [n' ch'] l l' [E1 E2] F IH]; intros D t a c St; cbn [enc_ents].
  - cbn. apply same_enc_goodbye, St.
  - cbn in E1, E2. subst n'. cbn [nonempty andb]. destruct full; [reflexivity|].
    inversion D as [|? ? D1 D2]; subst. cbn in D1.
    rewrite (same_shall_store path dir dir' n ch ch' Sd E2). destruct (shall_store ev' path dir' n ch'); [|apply IH; assumption].
    change (table_add ev' t n a) with (table_add ev t n a).
    destruct (table_add ev t n a) as [t1| | |] eqn:TA; [|reflexivity|reflexivity|reflexivity]. rewrite !wbind_lift_ok.
    f_equal. rewrite <- (Hsub (path ++ [n]) (Some t1) ch ch' _ c E2 D1).
    assert (Hl : 1 <= len (get_filename_data n)).
    { destruct (get_filename_data n) eqn:G; [exfalso; eapply filename_nonempty, G|]. rewrite len_cons. lia. }
    pose proof (Hadv (path ++ [n]) (Some t1) ch (a + len (get_filename_data n)) c) as A.
    destruct (sub (path ++ [n]) (Some t1) ch (a + len (get_filename_data n)) c) as [b [[a2 c2]| | |]]; try reflexivity.
    specialize (A a2 c2 eq_refl). cbn [fst] in A.
    unfold wbind at 1 3. cbn [fst snd].
    assert (K : wbind (wlift (table_end t1 a2)) (fun t0 => enc_ents ev sub false path dir l t0 a2 c2) =
                wbind (wlift (table_end t1 a2)) (fun t0 => enc_ents ev' sub' false path dir' l' t0 a2 c2)).
    { destruct (table_end t1 a2) as [t2| | |] eqn:TE; try reflexivity. rewrite !wbind_lift_ok. apply IH; [exact D2|].
      eapply starts_end; [exact TE|]. eapply starts_le; [|eapply starts_add; eauto]. lia. }
    rewrite K. reflexivity.
Qed.

Lemma same_enc_content full path f f' t a c : same_tree f f' -> distinct_names f -> starts_ok t a ->
  enc_content ev sub full path t f a c = enc_content ev' sub' full path t f' a c.
Proof.
  intros H D St. unfold enc_content. rewrite (same_enumerate _ _ H), (same_tree_mode _ _ H).
  destruct (same_dirents f f' H D) as [F1 F2].
  rewrite (same_enc_ents full path f f' (same_tree_stat _ _ H) _ _ F1 F2 t a c St), (same_enc_goodbye t a c St).
  assert (P : enc_pay f 0 a c = enc_pay f' 0 a c).
  { unfold enc_pay, can_read, enc_payload. destruct H; reflexivity. }
  rewrite P. reflexivity.
Qed.
End Ents.

Lemma same_enc_file free : forall p t f f' a c, same_tree f f' -> distinct_names f -> enc_file ev free p t f a c = enc_file ev' free p t f' a c.
Proof.
  induction free as [|free IH]; intros p t f f' a c H D; rewrite !enc_file_eq, (same_tree_mode _ _ H);
    (destruct (match t with Some _ => _ | None => _ end); [reflexivity|]);
    rewrite (same_entry_data c f f' H D);
    (destruct (get_entry_data ev' c f') as [[b c2]| | |]; [|reflexivity|reflexivity|reflexivity]); rewrite !wbind_lift_ok; f_equal;
    assert (NT : new_table t f' a = new_table t f a) by (unfold new_table; rewrite (same_tree_mode _ _ H); reflexivity); rewrite NT;
    assert (St : starts_ok (new_table t f a) (a + len b)) by
      (unfold new_table; destruct (negb _); [exact I|]; destruct t as [[]|]; cbn; auto; split; constructor).
  - apply same_enc_content; auto. intros. apply adv_ret.
  - apply same_enc_content; auto. intros. apply adv_sub with (free := S free).
Qed.

Theorem same_encode f f' : same_tree f f' -> distinct_names f -> encode ev f = encode ev' f'.
Proof.
  intros H D. unfold encode. rewrite (same_tree_mode _ _ H), (same_enc_file 63 [] None f f' 0 ecache0 H D).
  destruct (S_ISREG (f_mode f')); [|reflexivity]. unfold enc_pay, can_read, enc_payload. destruct H; reflexivity.
Qed.
End Same.

Theorem canonical ev1 ev2 f1 f2 e1 e2 o1 r1 o2 r2 : same_env ev1 ev2 -> same_tree f1 f2 -> distinct_names f1 ->
  encoder_new f1 = Ok e1 -> encoder_new f2 = Ok e2 -> eruns ev1 e1 o1 r1 -> eruns ev2 e2 o2 r2 ->
  r1 = r2 /\ (r1 = EFinished -> o1 = o2).
Proof.
  intros SE ST D N1 N2 R1 R2.
  assert (E : ev2 = with_qsort ev1 (ev_qsort ev2)).
  { destruct SE as [A1 A2 A3 A4 A5 A6 A7 A8 _ _]. unfold with_qsort. rewrite A1, A2, A3, A4, A5, A6, A7, A8. destruct ev2; reflexivity. }
  apply (new_runs _ _ _ _ _ N1) in R1. apply (new_runs _ _ _ _ _ N2) in R2.
  rewrite E in R2. rewrite <- (same_encode ev1 (ev_qsort ev2) (se_qsort_a _ _ SE) (se_qsort_b _ _ SE) f1 f2 ST D) in R2.
  destruct R1 as [(m1 & A1 & B1) C1], R2 as [(m2 & A2 & B2) C2]. cbn [fst snd] in *.
  destruct (snd (encode ev1 f1)); subst r1 r2; split; try reflexivity; try discriminate.
  intros _. rewrite (B1 eq_refl), app_nil_r in A1. rewrite (B2 eq_refl), app_nil_r in A2. congruence.
Qed.
