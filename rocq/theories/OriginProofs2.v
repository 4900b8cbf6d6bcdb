From Verif Require Import Base Locator ParseSize Number Properties_Locator NumberProofs Location LocationSpec LocationProofs1 LocationProofs2 LocationHeap LocationHeapProofs Origin OriginSpec OriginProofs1.
From Coq Require Import Sorting.Permutation.
Local Open Scope N_scope.

Lemma each_unref_ok ps : forall h hs, held h (ps ++ hs) ->
  exists h', each unref ps h = Some (tt, h') /\ held h' hs /\ (forall q l, sees h' q l <-> sees h q l).
Proof.
  induction ps as [|p ps IH]; intros h hs H; cbn [each].
  - exists h. split; [reflexivity|]. split; [exact H|reflexivity].
  - destruct (unref_ok h _ p H) as (h1 & E & H1 & S1). unfold mbind. rewrite E. destruct (IH h1 hs H1) as (h2 & E2 & H2 & S2). exists h2. split; [exact E2|].
    split; [exact H2|]. intros q l. rewrite S2. apply S1.
Qed.
Lemma each_ref_ok ps : forall h hs, held h hs -> incl ps hs ->
  exists h', each ref ps h = Some (tt, h') /\ held h' (ps ++ hs) /\ (forall q l, sees h' q l <-> sees h q l).
Proof.
  induction ps as [|p ps IH]; intros h hs H I; cbn [each].
  - exists h. split; [reflexivity|]. split; [exact H|reflexivity].
  - destruct (ref_ok h _ p H (I p (or_introl eq_refl))) as (h1 & E & H1 & S1). unfold mbind. rewrite E.
    destruct (IH h1 (p :: hs) H1) as (h2 & E2 & H2 & S2). { intros x X. right. apply I. right. exact X. }
    exists h2. split; [exact E2|]. split; [|intros q l; rewrite S2; apply S1]. eapply held_perm; [|exact H2]. apply Permutation_sym, Permutation_middle.
Qed.

Lemma flush_ok h hs o : held h (items o ++ hs) -> exists h', flush o h = Some (origin_new, h') /\ held h' hs /\ (forall q l, sees h' q l <-> sees h q l).
Proof.
  intros H. destruct (each_unref_ok _ h hs H) as (h' & E & X). exists h'. split; [|exact X]. unfold flush, mbind. rewrite E. reflexivity.
Qed.

Lemma Forall2_len {A B} (R : A -> B -> Prop) a b : Forall2 R a b -> length a = length b.
Proof. intros F. induction F; cbn; congruence. Qed.

Lemma all_sources_cons l ls : all_sources (l :: ls) = sources l ++ all_sources ls.
Proof. reflexivity. Qed.

Lemma concat_all_ok : forall ps ls' h hs o ls, held h (items o ++ hs) -> has_locs h o ls -> incl ps hs -> Forall2 (sees h) ps ls' -> Forall sized ls' ->
  len (all_sources ls) + len (all_sources ls') < UINT64_MAX ->
  exists o' h' ls2, concat_loop ps o UINT64_MAX h = Some ((Ok 1, o'), h') /\ held h' (items o' ++ hs) /\ has_locs h' o' ls2 /\
    all_sources ls2 = all_sources ls ++ all_sources ls' /\ keeps hs h h'.
Proof.
  induction ps as [|p ps IH]; intros ls' h hs o ls H L I F Z T.
  - inversion F; subst. cbn [concat_loop]. exists o, h, ls. split; [reflexivity|]. split; [exact H|]. split; [exact L|]. split; [symmetry; apply app_nil_r|apply keeps_refl].
  - inversion F as [|? l ? ls2 Sp F2]; subst. inversion Z as [|? ? Zl Z2]; subst. cbn [concat_loop]. rewrite all_sources_cons, len_app, sources_len in T.
    assert (Ip : In p hs) by (apply I; left; reflexivity).
    destruct (rd_ok h _ p l H (in_or_app _ _ _ (or_intror Ip)) Sp) as (x & R & V & _). pose proof (sized_size l Zl) as Zs.
    unfold mbind at 1. rewrite R, V. destruct (N.eqb_spec (size l) UINT64_MAX); [lia|]. unfold massert, mbind at 1. cbn [negb]. change (UINT64_MAX =? UINT64_MAX) with true. cbv iota.
    destruct (put_ok h hs o p ls l H L Ip Sp Zl) as (o1 & h1 & ls1 & E & H1 & L1 & S1 & K1); [lia|]. unfold mbind at 1. rewrite E.
    destruct (IH ls2 h1 hs o1 ls1 H1 L1) as (o2 & h2 & ls3 & E2 & H2 & L2 & S2 & K2).
    + intros y Y. apply I. right. exact Y.
    + eapply sees_keeps; [|exact F2]. eapply keeps_incl; [|exact K1]. intros y Y. apply I. right. exact Y.
    + exact Z2.
    + rewrite S1, len_app, sources_len. lia.
    + exists o2, h2, ls3. split; [exact E2|]. split; [exact H2|]. split; [exact L2|]. split; [|eapply keeps_trans; eassumption].
      rewrite S2, S1, all_sources_cons, app_assoc. reflexivity.
Qed.

Lemma concat_some_ok : forall ps ls' h hs o ls n, held h (items o ++ hs) -> has_locs h o ls -> incl ps hs -> Forall2 (sees h) ps ls' -> Forall sized ls' ->
  1 <= n -> n <= len (all_sources ls') -> n < UINT64_MAX -> len (all_sources ls) + n < UINT64_MAX ->
  exists o' h' ls2, concat_loop ps o n h = Some ((Ok 1, o'), h') /\ held h' (items o' ++ hs) /\ has_locs h' o' ls2 /\
    all_sources ls2 = all_sources ls ++ takeN n (all_sources ls') /\ keeps hs h h'.
Proof.
  induction ps as [|p ps IH]; intros ls' h hs o ls n H L I F Z N1 Nl Nm T.
  - inversion F; subst. change (len (all_sources [])) with 0 in Nl. lia.
  - inversion F as [|? l ? ls2 Sp F2]; subst. inversion Z as [|? ? Zl Z2]; subst. cbn [concat_loop]. rewrite all_sources_cons, len_app, sources_len in Nl.
    assert (Ip : In p hs) by (apply I; left; reflexivity). assert (U : UINT64_MAX < two64) by reflexivity.
    destruct (rd_ok h _ p l H (in_or_app _ _ _ (or_intror Ip)) Sp) as (x & R & V & _). pose proof (sized_size l Zl) as Zs.
    unfold mbind at 1. rewrite R, V. clear V. destruct (N.eqb_spec (size l) UINT64_MAX); [lia|]. unfold massert, mbind at 1. cbn [negb].
    destruct (N.eqb_spec n UINT64_MAX); [lia|].
    destruct (ref_ok h _ p H (in_or_app _ _ _ (or_intror Ip))) as (h1 & R1 & H1 & S1). unfold mbind at 1. rewrite R1.
    set (l' := if n <? size l then set_size n l else l).
    assert (P : exists p' c h2, (if n <? size l then patch_size p n else mret (Ok 0, p)) h1 = Some ((Ok c, p'), h2) /\ held h2 (p' :: items o ++ hs) /\ sees h2 p' l' /\ keeps (items o ++ hs) h1 h2).
    { unfold l'. destruct (N.ltb_spec n (size l)).
      - destruct (patch_size_ok h1 (items o ++ hs) p l n H1) as (c & p' & h2 & E & _ & X); [apply S1; exact Sp|apply Zl|]. exists p', c, h2. split; [exact E|exact X].
      - exists p, 0, h1. split; [reflexivity|]. split; [exact H1|]. split; [apply S1; exact Sp|apply keeps_refl]. }
    destruct P as (p' & c & h2 & E2 & H2 & S2 & K2). unfold mbind at 1. rewrite E2.
    destruct (rd_ok h2 _ p' l' H2 (or_introl eq_refl) S2) as (x2 & R2 & V2 & _). unfold mbind at 1. rewrite R2, V2. clear V2.
    assert (Zl' : sized l' /\ size l' = N.min n (size l) /\ sources l' = takeN (N.min n (size l)) (sources l)).
    { unfold l'. destruct (N.ltb_spec n (size l)).
      - split; [apply sized_resize; [exact Zl|lia|lia]|]. split; [cbn; lia|]. rewrite N.min_l by lia. apply sources_take. lia.
      - split; [exact Zl|]. split; [lia|]. rewrite N.min_r by lia. rewrite takeN_all; [reflexivity|]. rewrite sources_len. lia. }
    destruct Zl' as (Zl' & Zsz & Zso).
    assert (H2' : held h2 (items o ++ p' :: hs)) by (eapply held_perm; [|exact H2]; apply Permutation_middle).
    assert (L2 : has_locs h2 o ls).
    { eapply has_keeps; [|exact L]. intros y b Y Sy. apply K2; [apply in_or_app; left; exact Y|]. apply S1. exact Sy. }
    destruct (put_ok h2 (p' :: hs) o p' ls l' H2' L2 (or_introl eq_refl) S2 Zl') as (o3 & h3 & ls3 & E3 & H3 & L3 & S3 & K3); [lia|].
    unfold mbind at 1. rewrite E3.
    assert (H3' : held h3 (p' :: items o3 ++ hs)) by (eapply held_perm; [|exact H3]; apply Permutation_sym, Permutation_middle).
    destruct (unref_ok h3 _ p' H3') as (h4 & E4 & H4 & S4). unfold mbind at 1. rewrite E4.
    assert (L4 : has_locs h4 o3 ls3) by (eapply has_keeps; [|exact L3]; intros y b _ Sy; apply S4; exact Sy).
    assert (K4 : keeps hs h h4).
    { intros y b Y Sy. apply S4. apply K3; [right; exact Y|]. apply K2; [apply in_or_app; right; exact Y|]. apply S1. exact Sy. }
    assert (En : (n + two64 - size l') mod two64 = n - size l').
    { rewrite Zsz. replace (n + two64 - N.min n (size l)) with (n - N.min n (size l) + 1 * two64) by lia. rewrite N.mod_add by discriminate. apply N.mod_small. lia. }
    rewrite En. destruct (N.eqb_spec (n - size l') 0) as [E0|E0].
    + exists o3, h4, ls3. split; [reflexivity|]. split; [exact H4|]. split; [exact L4|]. split; [|exact K4]. rewrite S3, all_sources_cons. f_equal.
      assert (Hn : N.min n (size l) = n) by lia. rewrite Zso, Hn. symmetry. apply takeN_app_le. rewrite sources_len. lia.
    + assert (Hn : N.min n (size l) = size l) by lia. rewrite Zsz, Hn in *.
      destruct (IH ls2 h4 hs o3 ls3 (n - size l) H4 L4) as (o5 & h5 & ls5 & E5 & H5 & L5 & S5 & K5).
      * intros y Y. apply I. right. exact Y.
      * eapply sees_keeps; [|exact F2]. eapply keeps_incl; [|exact K4]. intros y Y. apply I. right. exact Y.
      * exact Z2.
      * lia.
      * lia.
      * lia.
      * rewrite S3, len_app, sources_len. lia.
      * exists o5, h5, ls5. split; [exact E5|]. split; [exact H5|]. split; [exact L5|]. split; [|eapply keeps_trans; eassumption].
        rewrite S5, S3, all_sources_cons, <- app_assoc. f_equal. rewrite Zso. rewrite (takeN_all (size l)) by (rewrite sources_len; lia).
        rewrite takeN_app_ge by (rewrite sources_len; lia). rewrite sources_len. reflexivity.
Qed.

(** ca_origin_concat from another origin: [hs] holds the other's items. *)
Definition cut_to (n : N) (y : list source) : list source := if n =? UINT64_MAX then y else takeN n y.

Lemma loop_ok ps ls' h hs o ls n : held h (items o ++ hs) -> has_locs h o ls -> incl ps hs -> Forall2 (sees h) ps ls' -> Forall sized ls' ->
  n <> 0 -> n <= len (all_sources ls') \/ n = UINT64_MAX -> n <= UINT64_MAX -> len (all_sources ls') < UINT64_MAX -> len (all_sources ls) + len (cut_to n (all_sources ls')) < UINT64_MAX ->
  exists o' h' ls2, concat_loop ps o n h = Some ((Ok 1, o'), h') /\ held h' (items o' ++ hs) /\ has_locs h' o' ls2 /\
    all_sources ls2 = all_sources ls ++ cut_to n (all_sources ls') /\ keeps hs h h'.
Proof.
  intros H L I F Z N0 Nl Nm Tl T. unfold cut_to in *. destruct (N.eqb_spec n UINT64_MAX) as [->|E].
  - apply concat_all_ok; assumption.
  - destruct Nl as [Nl|Nl]; [|congruence]. rewrite len_takeN in T. rewrite N.min_l in T by exact Nl. apply concat_some_ok; auto; lia.
Qed.

Lemma concat_ok h hs o other ls ls' n : held h (items o ++ hs) -> has_locs h o ls ->
  (match other with Some y => incl (items y) hs /\ has_locs h y ls' | None => ls' = ls end) -> n <= UINT64_MAX ->
  (n <= len (all_sources ls') \/ n = UINT64_MAX -> len (all_sources ls) + len (cut_to n (all_sources ls')) < UINT64_MAX) ->
  exists r o' h' ls2, origin_concat o other n h = Some ((r, o'), h') /\ held h' (items o' ++ hs) /\ has_locs h' o' ls2 /\ keeps hs h h' /\
    (if (len (all_sources ls') <? n) && negb (n =? UINT64_MAX) then r = Err ESPIPE /\ all_sources ls2 = all_sources ls /\ o' = o /\ h' = h
     else r = Ok (if len (cut_to n (all_sources ls')) =? 0 then 0 else 1) /\ all_sources ls2 = all_sources ls ++ cut_to n (all_sources ls')).
Proof.
  intros H L O Nm T. unfold origin_concat. set (y := match other with Some y => y | None => o end).
  assert (Ly : has_locs h y ls') by (unfold y; destruct other as [y'|]; [apply O|subst ls'; exact L]).
  rewrite (hl_bytes _ _ _ Ly).
  destruct (N.eqb_spec n 0) as [E0|E0].
  { exists (Ok 0), o, h, ls. split; [reflexivity|]. split; [exact H|]. split; [exact L|]. split; [apply keeps_refl|].
    assert ((len (all_sources ls') <? n) = false) as -> by (apply N.ltb_ge; lia). cbn [andb]. unfold cut_to. rewrite E0. change (0 =? UINT64_MAX) with false. cbv iota. rewrite takeN_0, app_nil_r. auto. }
  rewrite (andb_comm (len (all_sources ls') <? n)).
  destruct (negb (n =? UINT64_MAX) && (len (all_sources ls') <? n)) eqn:Ef.
  { exists (Err ESPIPE), o, h, ls. split; [reflexivity|]. split; [exact H|]. split; [exact L|]. split; [apply keeps_refl|auto]. }
  assert (Nl : n <= len (all_sources ls') \/ n = UINT64_MAX).
  { apply andb_false_iff in Ef. destruct Ef as [Ef|Ef]; [right; apply negb_false_iff, N.eqb_eq in Ef; exact Ef|left; apply N.ltb_ge in Ef; exact Ef]. }
  specialize (T Nl).
  destruct (items y) as [|p0 ps0] eqn:Ey.
  { assert (ls' = []) as ->. { pose proof (hl_sees _ _ _ Ly) as X. rewrite Ey in X. inversion X. reflexivity. }
    destruct Nl as [Nl|Nl]; [change (len (all_sources [])) with 0 in Nl; lia|]. rewrite Nl. change (UINT64_MAX =? UINT64_MAX) with true. cbn [andb].
    exists (Ok 0), o, h, ls. split; [reflexivity|]. split; [exact H|]. split; [exact L|]. split; [apply keeps_refl|]. split; [reflexivity|]. symmetry. apply app_nil_r. }
  rewrite andb_false_r.
  assert (Hc : len (cut_to n (all_sources ls')) =? 0 = false).
  { apply N.eqb_neq. unfold cut_to. destruct (n =? UINT64_MAX); [|destruct Nl as [Nl| ->]; [rewrite len_takeN; lia|]].
    - intros X. apply nonzero_len in X; [|apply (hl_sized _ _ _ Ly)]. subst ls'. pose proof (hl_sees _ _ _ Ly) as Y. rewrite Ey in Y. inversion Y.
    - rewrite len_takeN. intros X. assert (X' : len (all_sources ls') = 0) by lia. apply nonzero_len in X'; [|apply (hl_sized _ _ _ Ly)]. subst ls'. pose proof (hl_sees _ _ _ Ly) as Y. rewrite Ey in Y. inversion Y. }
  rewrite Hc.
  assert (Hl : forall ps : list ptr, (len (p0 :: ps) =? 0) = false) by (intros ps; apply N.eqb_neq; rewrite len_cons; lia).
  destruct other as [y'|].
  - change y with y' in *. clear y. destruct O as [Oi _]. rewrite Ey in Oi. pose proof (hl_sees _ _ _ Ly) as Fy. rewrite Ey in Fy.
    destruct (loop_ok (p0 :: ps0) ls' h hs o ls n H L Oi Fy (hl_sized _ _ _ Ly) E0 Nl Nm (hl_small _ _ _ Ly) T) as (o1 & h1 & ls1 & E & H1 & L1 & S1 & K1).
    unfold mbind at 1. unfold mret at 1. unfold mbind at 1. rewrite E. unfold mbind, mret. rewrite Hl.
    exists (Ok 1), o1, h1, ls1. split; [reflexivity|]. split; [exact H1|]. split; [exact L1|]. split; [exact K1|]. split; [reflexivity|exact S1].
  - change y with o in *. clear y. subst ls'. rewrite <- Ey.
    assert (Io : incl (items o) (items o ++ hs)) by (intros x X; apply in_or_app; left; exact X).
    destruct (each_ref_ok (items o) h _ H Io) as (h1 & E1 & H1 & S1). unfold mbind at 1. rewrite E1.
    assert (H1' : held h1 (items o ++ items o ++ hs)) by exact H1.
    assert (L1 : has_locs h1 o ls) by (eapply has_keeps; [|exact L]; intros x b _ Sx; apply S1; exact Sx).
    destruct (loop_ok (items o) ls h1 (items o ++ hs) o ls n H1' L1 Io (hl_sees _ _ _ L1) (hl_sized _ _ _ L1) E0 Nl Nm (hl_small _ _ _ L1) T) as (o2 & h2 & ls2 & E & H2 & L2 & S2 & K2).
    unfold mbind at 1. rewrite E.
    assert (H2' : held h2 (items o ++ items o2 ++ hs)).
    { eapply held_perm; [|exact H2]. rewrite !app_assoc. apply Permutation_app_tail. apply Permutation_app_comm. }
    destruct (each_unref_ok (items o) h2 _ H2') as (h3 & E3 & H3 & S3). unfold mbind. rewrite E3. unfold mret. rewrite Ey, Hl.
    exists (Ok 1), o2, h3, ls2. split; [reflexivity|]. split; [exact H3|]. split; [eapply has_keeps; [|exact L2]; intros x b _ Sx; apply S3; exact Sx|].
    split; [|split; [reflexivity|exact S2]]. intros x b X Sx. apply S3. apply K2; [apply in_or_app; right; exact X|]. apply S1. exact Sx.
Qed.

(** * Dropping bytes *)
Lemma drop_items_ok : forall ps ls h hs b, held h (ps ++ hs) -> Forall2 (sees h) ps ls -> b + len (all_sources ls) < UINT64_MAX ->
  exists h', drop_items ps b h = Some (b + len (all_sources ls), h') /\ held h' hs /\ (forall q l, sees h' q l <-> sees h q l).
Proof.
  induction ps as [|p ps IH]; intros ls h hs b H F T; inversion F as [|? l ? ls2 Sp F2]; subst; cbn [drop_items].
  - exists h. change (len (all_sources [])) with 0. rewrite N.add_0_r. split; [reflexivity|]. split; [exact H|reflexivity].
  - rewrite all_sources_cons, len_app, sources_len in *. assert (U : UINT64_MAX < two64) by reflexivity.
    destruct (rd_ok h _ p l H (or_introl eq_refl) Sp) as (x & R & V & _). unfold mbind at 1. rewrite R, V.
    destruct (unref_ok h _ p H) as (h1 & E1 & H1 & S1). unfold mbind at 1. rewrite E1. rewrite N.mod_small by lia.
    destruct (IH ls2 h1 hs (b + size l) H1) as (h2 & E2 & H2 & S2).
    + eapply sees_keeps; [|exact F2]. intros y c _ Sy. apply S1. exact Sy.
    + lia.
    + exists h2. split; [rewrite E2; do 2 f_equal; lia|]. split; [exact H2|]. intros q c. rewrite S2. apply S1.
Qed.

Lemma pass_items_ok : forall ps ls h hs n, held h hs -> incl ps hs -> Forall2 (sees h) ps ls -> Forall sized ls -> n < len (all_sources ls) ->
  exists k n' pa p pb la l lb, pass_items ps n h = Some ((k, n'), h) /\ ps = pa ++ p :: pb /\ ls = la ++ l :: lb /\ length pa = k /\ length la = k /\
    n = len (all_sources la) + n' /\ n' < size l.
Proof.
  induction ps as [|p ps IH]; intros ls h hs n H I F Z N; inversion F as [|? l ? ls2 Sp F2]; subst; cbn [pass_items].
  - change (len (all_sources [])) with 0 in N. lia.
  - inversion Z as [|? ? Zl Z2]; subst. rewrite all_sources_cons, len_app, sources_len in N. pose proof (sized_size l Zl) as Zs.
    destruct (rd_ok h _ p l H (I p (or_introl eq_refl)) Sp) as (x & R & V & _). unfold mbind at 1. rewrite R, V. clear V.
    destruct (N.eqb_spec (size l) UINT64_MAX); [lia|]. unfold massert, mbind at 1. cbn [negb]. destruct (N.ltb_spec n (size l)) as [Hl|Hl].
    + exists O, n, [], p, ps, [], l, ls2. repeat split; auto.
    + destruct (IH ls2 h hs (n - size l) H) as (k & n' & pa & p' & pb & la & l' & lb & E & -> & -> & L1 & L2 & L3 & L4).
      * intros y Y. apply I. right. exact Y.
      * exact F2.
      * exact Z2.
      * lia.
      * unfold mbind. rewrite E. exists (S k), n', (p :: pa), p', pb, (l :: la), l', lb. split; [reflexivity|]. split; [reflexivity|]. split; [reflexivity|].
        split; [cbn; lia|]. split; [cbn; lia|]. split; [|exact L4]. rewrite all_sources_cons, len_app, sources_len. lia.
Qed.

Lemma sized_moved l n : sized l -> n < size l -> sized (moved n l).
Proof.
  intros [P S] H. destruct P as [K Pp V O Z]. destruct Z as [Z1 Z2]. assert (Hm : (size l =? UINT64_MAX) = false) by (apply N.eqb_neq; lia).
  destruct Z2 as [Z2|Z2]; [lia|]. split; [|unfold moved; cbn [size]; rewrite Hm; lia].
  constructor; unfold moved; cbn [designator path offset size]; auto.
  - intros E. rewrite E. split; [apply V; exact E|reflexivity].
  - destruct (N.eqb_spec (designator l) 118); [reflexivity|]. lia.
  - rewrite Hm. split; [lia|]. right. destruct (N.eqb_spec (designator l) 118); [|lia]. lia.
Qed.
Lemma sources_advanced l n : sized l -> n < size l -> n <> 0 -> sized (advanced n l) /\ sources (advanced n l) = dropN n (sources l).
Proof.
  intros Z H N0. pose proof (sized_moved l n Z H) as Zm. destruct Z as [P S]. assert (U : UINT64_MAX < two64) by reflexivity.
  assert (E : designator (advanced n l) = designator (moved n l) /\ path (advanced n l) = path (moved n l) /\ offset (advanced n l) = offset (moved n l) /\ size (advanced n l) = size (moved n l)
              /\ object_of (advanced n l) = object_of (moved n l)).
  { unfold advanced, moved, object_of. cbn [designator path offset size root mtime inode generation generation_valid]. repeat split. unfold DES_VOID.
    destruct (N.eqb_spec (designator l) 118) as [E|E]; [apply (p_void _ P E)|]. apply N.mod_small. destruct (p_size _ P) as [_ [X|X]]; lia. }
  destruct E as (E1 & E2 & E3 & E4 & E5). split.
  - destruct Zm as [[K Pp V O Z] Sm]. split; [|rewrite E4; exact Sm]. constructor; rewrite ?E1, ?E2, ?E3, ?E4; auto.
  - rewrite <- (sources_drop l n) by lia. unfold sources. rewrite E1, E3, E4, E5. reflexivity.
Qed.

Lemma advance_bytes_ok h hs o ls n : held h (items o ++ hs) -> has_locs h o ls ->
  exists r o' h' ls2, advance_bytes o n h = Some ((r, o'), h') /\ held h' (items o' ++ hs) /\ has_locs h' o' ls2 /\ keeps hs h h' /\
    (if len (all_sources ls) <? n then r = Err ESPIPE /\ all_sources ls2 = all_sources ls else r = Ok 0 /\ all_sources ls2 = dropN n (all_sources ls)).
Proof.
  intros H L. unfold advance_bytes. rewrite (hl_bytes _ _ _ L). destruct (N.eqb_spec n 0) as [->|N0].
  { exists (Ok 0), o, h, ls. split; [reflexivity|]. split; [exact H|]. split; [exact L|]. split; [apply keeps_refl|].
    assert ((len (all_sources ls) <? 0) = false) as -> by (apply N.ltb_ge; lia). rewrite dropN_0. auto. }
  destruct (N.ltb_spec (len (all_sources ls)) n) as [Hf|Hf].
  { exists (Err ESPIPE), o, h, ls. split; [reflexivity|]. split; [exact H|]. split; [exact L|]. split; [apply keeps_refl|auto]. }
  destruct (N.eqb_spec n (len (all_sources ls))) as [En|En].
  { destruct (flush_ok h hs o H) as (h1 & E1 & H1 & S1). unfold mbind. rewrite E1. exists (Ok 0), origin_new, h1, []. split; [reflexivity|]. split; [exact H1|].
    split; [constructor; cbn; auto; reflexivity|]. split; [intros y c _ Sy; apply S1; exact Sy|]. split; [reflexivity|]. rewrite dropN_all by lia. reflexivity. }
  destruct (pass_items_ok (items o) ls h _ n H) as (k & n' & pa & p & pb & la & l & lb & E & Ep & El & K1 & K2 & K3 & K4).
  { intros x X. apply in_or_app. left. exact X. } { apply (hl_sees _ _ _ L). } { apply (hl_sized _ _ _ L). } { lia. }
  unfold mbind at 1. rewrite E.
  pose proof (hl_sees _ _ _ L) as Fs. pose proof (hl_sized _ _ _ L) as Zs. pose proof (hl_small _ _ _ L) as Sm. pose proof (hl_bytes _ _ _ L) as By. rewrite Ep in *. rewrite El in *.
  apply Forall2_app_inv_l in Fs. destruct Fs as (la' & lb' & Fa & Fb & Eq).
  assert (Lla : length la' = length la) by (rewrite <- (Forall2_len _ _ _ Fa); lia).
  assert (la' = la /\ lb' = l :: lb) as [-> ->].
  { clear -Eq Lla. revert la' Eq Lla. induction la as [|a la IH]; intros [|a' la'] Eq Lla; cbn in *; try lia; [auto|]. injection Eq as -> Eq. destruct (IH la' Eq ltac:(lia)) as [-> ->]. auto. }
  clear Eq Lla. inversion Fb as [|? ? ? ? Sp Fb2]; subst. apply Forall_app in Zs. destruct Zs as [Za Zb]. inversion Zb as [|? ? Zl Zb2]; subst.
  rewrite all_sources_app, all_sources_cons, !len_app, sources_len in *.
  (* the items dropped *)
  assert (A : exists h1, advance_items o (length pa) h = Some ((Ok 0, mkOrigin (p :: pb) (size l + len (all_sources lb))), h1) /\ held h1 ((p :: pb) ++ hs) /\ (forall q c, sees h1 q c <-> sees h q c)).
  { unfold advance_items. destruct pa as [|p0 pa].
    - inversion Fa; subst. exists h. cbn [length app] in *. split; [|split; [exact H|reflexivity]]. destruct o as [it nb]. cbn [items n_bytes] in *. subst. reflexivity.
    - cbn [length]. rewrite Ep. rewrite app_length. cbn [length]. destruct (Nat.ltb_spec (S (length pa) + S (length pb)) (S (length pa))); [lia|].
      destruct (Nat.eqb_spec (S (length pa)) (S (length pa) + S (length pb))); [lia|].
      assert (Fn : firstn (S (length pa)) ((p0 :: pa) ++ p :: pb) = p0 :: pa).
      { change (S (length pa)) with (length (p0 :: pa)). rewrite firstn_app, Nat.sub_diag, firstn_all. apply app_nil_r. }
      assert (Sn : skipn (S (length pa)) ((p0 :: pa) ++ p :: pb) = p :: pb).
      { change (S (length pa)) with (length (p0 :: pa)). rewrite skipn_app, Nat.sub_diag, skipn_all. reflexivity. }
      rewrite Fn, Sn. rewrite <- app_assoc in H. destruct (drop_items_ok (p0 :: pa) la h ((p :: pb) ++ hs) 0 H Fa ltac:(lia)) as (h1 & E1 & H1 & S1).
      unfold mbind at 1. rewrite E1. pose proof (sized_size l Zl). unfold massert. destruct (N.ltb_spec (0 + len (all_sources la)) (n_bytes o)); [|lia]. unfold mbind, mret.
      exists h1. split; [|split; [exact H1|exact S1]]. do 4 f_equal. lia. }
  destruct A as (h1 & E1 & H1 & S1). unfold mbind at 1. rewrite E1. cbn [n_bytes items].
  unfold massert, mbind at 1. destruct (N.ltb_spec n' (size l + len (all_sources lb))); [|lia].
  assert (Sp1 : sees h1 p l) by (apply S1; exact Sp). cbn [app] in H1.
  destruct (rd_ok h1 _ p l H1 (or_introl eq_refl) Sp1) as (x & R & V & _). unfold mbind at 1. rewrite R, V. clear V. unfold mbind at 1. destruct (N.ltb_spec n' (size l)); [|lia].
  destruct (advance_ok h1 (pb ++ hs) p l n' H1 Sp1 (proj1 Zl)) as (c & p' & h2 & E2 & H2x & K2' & Res). unfold mbind at 1. rewrite E2.
  pose proof (sized_size l Zl) as Zsl.
  set (l2 := if n' =? 0 then l else advanced n' l).
  assert (X : (exists m, c = Ok m) /\ sees h2 p' l2 /\ sized l2 /\ sources l2 = dropN n' (sources l)).
  { unfold l2. destruct (N.eqb_spec n' 0) as [Ez|Ez].
    - destruct Res as [-> Res]. rewrite Ez, dropN_0. split; [eexists; reflexivity|]. split; [exact Res|]. split; [exact Zl|reflexivity].
    - destruct (N.ltb_spec (size l) n'); [lia|]. rewrite andb_false_r in Res. destruct Res as [-> Res]. destruct (sources_advanced l n' Zl ltac:(assumption) Ez). eauto. }
  destruct X as ([m ->] & Sl2 & Zl2 & El2). eexists (Ok 0), _, h2, (l2 :: lb). split; [reflexivity|]. cbn [items n_bytes]. split; [exact H2x|].
  assert (Es : all_sources (l2 :: lb) = dropN (len (all_sources la) + n') (all_sources la ++ sources l ++ all_sources lb)).
  { rewrite all_sources_cons, El2. rewrite dropN_app_ge by lia. replace (len (all_sources la) + n' - len (all_sources la)) with n' by lia. rewrite dropN_app_le by (rewrite sources_len; lia). reflexivity. }
  assert (Ls : size l2 = size l - n').
  { rewrite <- (sources_len l2), El2, len_dropN, sources_len. reflexivity. }
  split; [|split].
  - constructor; cbn [items n_bytes].
    + constructor; [exact Sl2|]. eapply sees_keeps; [|exact Fb2]. intros y b Y Sy. apply K2'; [apply in_or_app; left; exact Y|]. apply S1. exact Sy.
    + constructor; assumption.
    + rewrite all_sources_cons, len_app, sources_len. lia.
    + rewrite all_sources_cons, len_app, sources_len. lia.
  - intros y b Y Sy. apply K2'; [apply in_or_app; right; exact Y|]. apply S1. exact Sy.
  - split; [reflexivity|exact Es].
Qed.

(** * Unknown bytes *)
Lemma new_void n : n <> 0 -> n < UINT64_MAX -> exists l, location_new None DES_VOID 0 n = Ok l /\ sized l /\ size l = n /\ sources l = repeat Void (N.to_nat n).
Proof.
  intros N0 Nm. unfold location_new. change (designator_valid DES_VOID) with true. cbn [negb isempty strempty andb]. change (0 =? UINT64_MAX) with false. cbv iota.
  destruct (N.eqb_spec n 0); [congruence|]. change (DES_VOID =? DES_VOID) with true. cbn [andb]. destruct (N.eqb_spec n UINT64_MAX); [lia|]. cbn [negb andb].
  rewrite N.add_0_l, N.mod_small by (unfold UINT64_MAX, two64 in *; lia). assert ((n <? 0) = false) as -> by (apply N.ltb_ge; lia).
  eexists. split; [reflexivity|]. split; [|split; reflexivity]. split; [|exact Nm]. constructor; cbn.
  - unfold kind, DES_VOID. auto.
  - discriminate.
  - auto.
  - reflexivity.
  - split; [exact N0|]. right. lia.
Qed.

Lemma put_void_ok h hs o ls n : held h (items o ++ hs) -> has_locs h o ls -> len (all_sources ls) + n < UINT64_MAX ->
  exists o' h' ls2, put_void o n h = Some ((Ok 0, o'), h') /\ held h' (items o' ++ hs) /\ has_locs h' o' ls2 /\ keeps hs h h' /\
    all_sources ls2 = all_sources ls ++ repeat Void (N.to_nat n).
Proof.
  intros H L T. unfold put_void. destruct (N.eqb_spec n 0) as [->|N0].
  { exists o, h, ls. split; [reflexivity|]. split; [exact H|]. split; [exact L|]. split; [apply keeps_refl|]. symmetry. apply app_nil_r. }
  set (fresh := match location_new None DES_VOID 0 n with Ok l => _ | _ => _ end).
  assert (Fr : exists o' h' ls2, fresh h = Some ((Ok 0, o'), h') /\ held h' (items o' ++ hs) /\ has_locs h' o' ls2 /\ keeps hs h h' /\ all_sources ls2 = all_sources ls ++ repeat Void (N.to_nat n)).
  { destruct (new_void n N0 ltac:(lia)) as (l & El & Zl & Sz & So). unfold fresh. rewrite El.
    destruct (alloc_ok h _ l H) as (A & H1 & S1 & Z1 & K1). unfold mbind at 1. rewrite A.
    set (h1 := h ++ [mkObj 1 l None]) in *. set (v := length h) in *.
    assert (H1' : held h1 (items o ++ v :: hs)) by (eapply held_perm; [|exact H1]; apply Permutation_middle).
    assert (L1 : has_locs h1 o ls) by (eapply has_keeps; [|exact L]; intros y b _ Sy; apply K1; exact Sy).
    destruct (put_ok h1 (v :: hs) o v ls l H1' L1 (or_introl eq_refl) S1 Zl) as (o2 & h2 & ls2 & E2 & H2 & L2 & S2 & K2); [lia|]. unfold mbind at 1. rewrite E2.
    assert (H2' : held h2 (v :: items o2 ++ hs)) by (eapply held_perm; [|exact H2]; apply Permutation_sym, Permutation_middle).
    destruct (unref_ok h2 _ v H2') as (h3 & E3 & H3 & S3). unfold mbind. rewrite E3. exists o2, h3, ls2. split; [reflexivity|]. split; [exact H3|].
    split; [eapply has_keeps; [|exact L2]; intros y b _ Sy; apply S3; exact Sy|]. split; [|rewrite S2, So; reflexivity].
    intros y b Y Sy. apply S3. apply K2; [right; exact Y|]. apply K1. exact Sy. }
  pose proof (split_last_inv (items o)) as Sp. destruct (split_last (items o)) as [[ps p]|]; [|exact Fr].
  destruct L as [A B C D]. rewrite Sp in A, H. apply Forall2_app_inv_l in A. destruct A as (lsa & lsb & Fa & Fb & ->). inversion Fb as [|? a ? ? Sa Fb']; subst. inversion Fb'; subst. clear Fb Fb'.
  apply Forall_app in B. destruct B as [B1 B2]. inversion B2 as [|? ? Za _]; subst.
  rewrite all_sources_app, len_app in C, D, T. change (all_sources [a]) with (sources a ++ []) in C, D, T. rewrite app_nil_r, sources_len in C, D, T.
  pose proof (sized_size a Za) as Zas. assert (U : UINT64_MAX < two64) by reflexivity.
  assert (H' : held h (p :: ps ++ hs)) by (eapply held_perm; [|exact H]; rewrite <- app_assoc; apply Permutation_sym, Permutation_middle).
  destruct (rd_ok h _ p a H' (or_introl eq_refl) Sa) as (x & R & V & _). unfold mbind at 1. rewrite R, V. clear V. unfold DES_VOID at 1.
  destruct (N.eqb_spec (designator a) 118) as [Ev|Ev]; [|exact Fr].
  rewrite N.mod_small by lia. destruct (patch_size_ok h (ps ++ hs) p a (size a + n) H' Sa (proj1 Za)) as (c & p' & h1 & E1 & _ & H1 & S1 & K1). unfold mbind. rewrite E1. unfold mret.
  rewrite N.mod_small by lia. exists (mkOrigin (ps ++ [p']) (n_bytes o + n)), h1, (lsa ++ [set_size (size a + n) a]). split; [reflexivity|].
  assert (Es : all_sources (lsa ++ [set_size (size a + n) a]) = (all_sources lsa ++ sources a) ++ repeat Void (N.to_nat n)).
  { rewrite all_sources_app. change (all_sources [?x]) with (sources x ++ []). rewrite app_nil_r, <- app_assoc. f_equal. unfold sources. cbn [set_size designator size]. rewrite Ev. cbn [N.eqb Pos.eqb].
    rewrite N2Nat.inj_add. apply repeat_app'. }
  assert (Le : len (all_sources (lsa ++ [set_size (size a + n) a])) = len (all_sources lsa) + size a + n).
  { rewrite Es, !len_app, sources_len, len_repeat'. lia. }
  split; [|split; [|split]].
  - cbn [items]. eapply held_perm; [|exact H1]. rewrite <- app_assoc. apply Permutation_middle.
  - constructor; cbn [items n_bytes].
    + apply Forall2_app; [|constructor; [exact S1|constructor]]. eapply sees_keeps; [|exact Fa]. eapply keeps_incl; [|exact K1]. intros y Y. apply in_or_app. left. exact Y.
    + apply Forall_app. split; [exact B1|]. constructor; [|constructor]. destruct (proj1 Za) as [Q1 Q2 Q3 Q4 Q5]. split; [|cbn; lia].
      constructor; cbn [set_size designator path offset size]; auto. split; [lia|]. right. destruct (Q3 Ev) as [_ ->]. lia.
    + rewrite Le. lia.
    + rewrite Le. lia.
  - eapply keeps_incl; [|exact K1]. intros y Y. apply in_or_app. right. exact Y.
  - rewrite Es, all_sources_app. change (all_sources [a]) with (sources a ++ []). rewrite app_nil_r. reflexivity.
Qed.

Lemma extract_ok h hs o ls n : held h hs -> incl (items o) hs -> has_locs h o ls -> n <= UINT64_MAX ->
  exists r h', extract_bytes o n h = Some (r, h') /\ keeps hs h h' /\
    (if n =? 0 then r = Ok None /\ held h' hs
     else if (len (all_sources ls) <? n) && negb (n =? UINT64_MAX) then r = Err ESPIPE /\ held h' hs
     else exists t ls2, r = Ok (Some t) /\ held h' (items t ++ hs) /\ has_locs h' t ls2 /\ all_sources ls2 = takeN n (all_sources ls)).
Proof.
  intros H I L Nm. unfold extract_bytes. destruct (N.eqb_spec n 0) as [E0|E0].
  { exists (Ok None), h. split; [reflexivity|]. split; [apply keeps_refl|auto]. }
  assert (L0 : has_locs h origin_new []) by (constructor; cbn; auto; reflexivity).
  pose proof (hl_small _ _ _ L) as Sm.
  destruct (concat_ok h hs origin_new (Some o) [] ls n H L0 (conj I L) Nm) as (r & t & h1 & ls2 & E & H1 & L1 & K1 & Res).
  { intros _. change (len (all_sources [])) with 0. unfold cut_to. destruct (n =? UINT64_MAX); [lia|]. rewrite len_takeN. lia. }
  unfold mbind at 1. rewrite E. destruct ((len (all_sources ls) <? n) && negb (n =? UINT64_MAX)) eqn:Ef.
  - destruct Res as (-> & _ & -> & ->). destruct (flush_ok h hs origin_new H1) as (h2 & E2 & H2 & S2). unfold mbind. rewrite E2. exists (Err ESPIPE), h2. split; [reflexivity|].
    split; [intros y b _ Sy; apply S2; exact Sy|auto].
  - destruct Res as (-> & Es). exists (Ok (Some t)), h1. split; [reflexivity|]. split; [exact K1|]. exists t, ls2. split; [reflexivity|]. split; [exact H1|]. split; [exact L1|].
    rewrite Es. change (all_sources []) with (@nil source). cbn [app]. unfold cut_to. destruct (N.eqb_spec n UINT64_MAX) as [->|]; [|reflexivity]. symmetry. apply takeN_all. lia.
Qed.
