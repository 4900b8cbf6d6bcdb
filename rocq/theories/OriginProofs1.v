From Verif Require Import Base Locator ParseSize Number Properties_Locator NumberProofs Location LocationSpec LocationProofs1 LocationProofs2 LocationHeap LocationHeapProofs Origin OriginSpec.
From Coq Require Import Sorting.Permutation.
Local Open Scope N_scope.

(** * Bytes of locations *)
Lemma len_repeat' {A} (x : A) n : len (repeat x n) = N.of_nat n.
Proof. unfold len. rewrite repeat_length. reflexivity. Qed.
Lemma positions_len o n : len (positions o n) = n.
Proof. unfold positions, len. rewrite map_length, seq_length. apply N2Nat.id. Qed.
Lemma positions_app o a b : positions o (a + b) = positions o a ++ positions (o + a) b.
Proof.
  unfold positions. rewrite N2Nat.inj_add, seq_app, map_app. f_equal. cbn [Nat.add].
  assert (G : forall m k, map (fun x => o + N.of_nat x) (seq (N.to_nat a + k) m) = map (fun x => o + a + N.of_nat x) (seq k m)).
  { induction m as [|m IH]; intros k; cbn [seq map]; [reflexivity|]. f_equal; [lia|]. rewrite plus_n_Sm. apply IH. }
  rewrite <- (G _ O), Nat.add_0_r. reflexivity.
Qed.
Lemma len_map {A B} (f : A -> B) l : len (map f l) = len l.
Proof. unfold len. rewrite map_length. reflexivity. Qed.
Lemma sources_len l : len (sources l) = size l.
Proof.
  unfold sources. destruct (designator l =? 118); [rewrite len_repeat'; apply N2Nat.id|]. rewrite len_map. apply positions_len.
Qed.
Lemma repeat_app' {A} (x : A) a b : repeat x (a + b) = repeat x a ++ repeat x b.
Proof. induction a; cbn; congruence. Qed.

(** Cutting a location in two. *)
Lemma sources_split l n m : size l = n + m ->
  sources l = sources (set_size n l) ++ (if designator l =? 118 then repeat Void (N.to_nat m) else map (At (object_of l)) (positions (offset l + n) m)).
Proof.
  intros E. unfold sources. cbn [set_size designator size offset]. change (object_of (set_size n l)) with (object_of l).
  destruct (designator l =? 118); rewrite E.
  - rewrite N2Nat.inj_add. apply repeat_app'.
  - rewrite positions_app, map_app. reflexivity.
Qed.
Lemma sources_take l n : n <= size l -> sources (set_size n l) = takeN n (sources l).
Proof.
  intros H. rewrite (sources_split l n (size l - n)) by lia. rewrite takeN_app_exact; [reflexivity|]. apply sources_len.
Qed.
Lemma sources_drop l n : n <= size l -> size l <> UINT64_MAX -> sources (moved n l) = dropN n (sources l).
Proof.
  intros H Hm. apply N.eqb_neq in Hm. rewrite (sources_split l n (size l - n)) by lia. rewrite dropN_app_exact by apply sources_len.
  unfold sources, moved. cbn [designator size offset]. rewrite Hm. destruct (designator l =? 118); [reflexivity|]. reflexivity.
Qed.
Lemma object_iff a b : object_of a = object_of b <-> root a = root b /\ path a = path b /\ designator a = designator b /\ stamp a = stamp b.
Proof. unfold object_of, stamp. split; [intros E; injection E as -> -> -> ->; auto|]. intros (-> & -> & -> & ->). reflexivity. Qed.
Lemma sources_merge a b : root a = root b -> path a = path b -> designator a = designator b -> stamp a = stamp b -> (designator a = 118 \/ offset a + size a = offset b) ->
  sources (set_size (size a + size b) a) = sources a ++ sources b.
Proof.
  intros H1 H2 H3 H4 H5. rewrite (sources_split (set_size (size a + size b) a) (size a) (size b)) by reflexivity.
  assert (set_size (size a) (set_size (size a + size b) a) = a) as -> by (destruct a; reflexivity). f_equal.
  cbn [set_size designator offset]. change (object_of (set_size (size a + size b) a)) with (object_of a).
  assert (O : object_of a = object_of b) by (apply object_iff; auto). unfold sources. rewrite <- H3, <- O.
  destruct (N.eqb_spec (designator a) 118); [reflexivity|]. destruct H5 as [H5|H5]; [congruence|]. rewrite H5. reflexivity.
Qed.

Definition all_sources (ls : list loc) : list source := concat (map sources ls).
Lemma all_sources_app a b : all_sources (a ++ b) = all_sources a ++ all_sources b.
Proof. unfold all_sources. rewrite map_app, concat_app. reflexivity. Qed.

Lemma sized_size l : sized l -> 1 <= size l < UINT64_MAX.
Proof. intros [P S]. destruct (p_size _ P). lia. Qed.
Lemma sized_resize l n : sized l -> 1 <= n -> n <= size l -> sized (set_size n l).
Proof.
  intros [P S] H1 H2. split; [|cbn; lia]. destruct P as [K Pp V O Z]. constructor; cbn [set_size designator path offset size]; auto. destruct Z as [Z1 Z2]. split; [lia|right; lia].
Qed.
Lemma moved_advanced l n : proper (moved n l) -> archive_offset (moved n l) <= UINT64_MAX -> proper l -> advanced n l = moved n l.
Proof.
  intros P A Pl. unfold advanced, moved in *. cbn [archive_offset] in A. pose proof (p_offset _ P) as O. cbn [offset] in O. unfold DES_VOID.
  assert (U : UINT64_MAX < two64) by reflexivity. f_equal.
  - destruct (N.eqb_spec (designator l) 118) as [E|E]; [apply (p_void _ Pl E)|]. apply N.mod_small. lia.
  - destruct (archive_offset l =? UINT64_MAX); [reflexivity|]. apply N.mod_small. lia.
Qed.

(** * Origins *)
Lemma split_last_snoc ps p : split_last (ps ++ [p]) = Some (ps, p).
Proof. induction ps as [|x ps IH]; cbn [app split_last]; [reflexivity|]. rewrite IH. reflexivity. Qed.
Lemma split_last_inv ps : match split_last ps with None => ps = [] | Some (a, b) => ps = a ++ [b] end.
Proof. induction ps as [|x ps IH]; cbn [split_last]; [reflexivity|]. destruct (split_last ps) as [[a b]|]; subst; reflexivity. Qed.

(** The origin [o] has the locations [ls]. *)
Record has_locs (h : heap) (o : origin) (ls : list loc) : Prop := mkHas {
  hl_sees : Forall2 (sees h) (items o) ls;
  hl_sized : Forall sized ls;
  hl_bytes : n_bytes o = len (all_sources ls);
  hl_small : len (all_sources ls) < UINT64_MAX }.

Lemma sees_keeps h h' ps ls : keeps ps h h' -> Forall2 (sees h) ps ls -> Forall2 (sees h') ps ls.
Proof.
  intros K F. induction F as [|p l ps ls S F IH]; constructor.
  - apply K; [left; reflexivity|exact S].
  - apply IH. eapply keeps_incl; [|exact K]. intros x X. right. exact X.
Qed.
Lemma has_keeps h h' o ls : keeps (items o) h h' -> has_locs h o ls -> has_locs h' o ls.
Proof. intros K [A B C D]. constructor; auto. eapply sees_keeps; eassumption. Qed.

Lemma nonzero_len (ls : list loc) : Forall sized ls -> len (all_sources ls) = 0 -> ls = [].
Proof.
  intros F E. destruct F as [|l ls S F]; [reflexivity|]. unfold all_sources in E. cbn [map concat] in E. rewrite len_app, sources_len in E. apply sized_size in S. lia.
Qed.

Lemma set_size_same l : set_size (size l) l = l. Proof. destruct l; reflexivity. Qed.

(** The first location stays the first, though it may become longer. *)
Lemma put_ok_first h hs o q ls l : held h (items o ++ hs) -> has_locs h o ls -> In q hs -> sees h q l -> sized l -> len (all_sources ls) + size l < UINT64_MAX ->
  exists o' h' ls', put o q h = Some ((Ok 0, o'), h') /\ held h' (items o' ++ hs) /\ has_locs h' o' ls' /\ all_sources ls' = all_sources ls ++ sources l /\ keeps hs h h' /\
    exists s, hd_error ls' = Some (set_size s (hd l ls)).
Proof.
  intros H [A B C D] I S Z T. destruct (rd_ok h _ q l H (in_or_app _ _ _ (or_intror I)) S) as (x & R & V & _).
  pose proof (sized_size l Z) as Zs. assert (U : UINT64_MAX < two64) by reflexivity.
  unfold put, mbind at 1. rewrite R, V. clear V. destruct (N.eqb_spec (size l) UINT64_MAX); [lia|].
  pose proof (split_last_inv (items o)) as Sp. destruct (split_last (items o)) as [[ps p]|].
  - rewrite Sp in A, H. apply Forall2_app_inv_l in A. destruct A as (lsa & lsb & Fa & Fb & ->). inversion Fb as [|? a ? ? Sa Fb']; subst. inversion Fb'; subst. clear Fb Fb'.
    apply Forall_app in B. destruct B as [B1 B2]. inversion B2 as [|? ? Za _]; subst.
    rewrite all_sources_app, len_app in C, D, T. change (all_sources [a]) with (sources a ++ []) in C, D, T. rewrite app_nil_r, sources_len in C, D, T.
    pose proof (sized_size a Za) as Zas.
    assert (H' : held h (p :: ps ++ hs)) by (eapply held_perm; [|exact H]; rewrite <- app_assoc; apply Permutation_sym, Permutation_middle).
    destruct (merge_ok h (ps ++ hs) p q a l H' Sa (proj1 Za)) as (c & p' & h' & E & H1 & K & Res); [apply in_or_app; right; exact I|exact S|lia|lia|].
    unfold mbind at 1. rewrite E.
    assert (Kh : keeps hs h h') by (eapply keeps_incl; [|exact K]; intros y Y; apply in_or_app; right; exact Y).
    assert (Kp : keeps ps h h') by (eapply keeps_incl; [|exact K]; intros y Y; apply in_or_app; left; exact Y).
    assert (H1' : held h' ((ps ++ [p']) ++ hs)) by (eapply held_perm; [|exact H1]; rewrite <- app_assoc; apply Permutation_middle).
    destruct (mergeable a l) eqn:Em.
    + destruct Res as [-> Sm]. apply mergeable_iff in Em. destruct Em as (M1 & M2 & M3 & M4 & M5).
      assert (M4' : designator a = 118 \/ offset a + size a = offset l).
      { destruct M4 as [M4|M4]; [left; exact M4|]. right. rewrite N.mod_small in M4; [exact M4|]. destruct (p_size _ (proj1 Za)) as [_ [X|X]]; lia. }
      rewrite N.mod_small in Sm by lia.
      destruct (rd_ok h' _ q l H1 (or_intror (in_or_app _ _ _ (or_intror I))) (Kh q l I S)) as (x2 & R2 & V2 & _).
      change (match 1 with 0 => _ | Npos _ => ?k end) with k. unfold mbind. rewrite R2, V2, N.mod_small by lia.
      eexists _, h', (lsa ++ [set_size (size a + size l) a]). split; [reflexivity|].
      assert (Es : all_sources (lsa ++ [set_size (size a + size l) a]) = all_sources (lsa ++ [a]) ++ sources l).
      { rewrite !all_sources_app. unfold all_sources at 2 4. cbn [map concat]. rewrite !app_nil_r, <- app_assoc. f_equal. apply sources_merge; assumption. }
      split; [exact H1'|]. split; [|split; [exact Es|split; [exact Kh|]]]; [|destruct lsa as [|y lsa]; cbn [app hd hd_error]; eexists; [reflexivity|rewrite <- (set_size_same y) at 1; reflexivity]].
      constructor; cbn [items n_bytes].
      * apply Forall2_app; [eapply sees_keeps; eassumption|]. constructor; [exact Sm|constructor].
      * apply Forall_app. split; [exact B1|]. constructor; [|constructor]. split; [|cbn; lia]. destruct (proj1 Za) as [Q1 Q2 Q3 Q4 Q5].
        constructor; cbn [set_size designator path offset size]; auto. split; [lia|]. right.
        destruct M4' as [Mv|Mo].
        { destruct (Q3 Mv) as [_ Q0]. rewrite Q0. lia. }
        { rewrite N.add_assoc, Mo. destruct (p_size _ (proj1 Z)) as [_ [X|X]]; lia. }
      * rewrite Es, !len_app, all_sources_app, len_app, sources_len. unfold all_sources at 2. cbn [map concat]. rewrite app_nil_r, sources_len. rewrite C. lia.
      * rewrite Es, !len_app, all_sources_app, len_app, sources_len. unfold all_sources at 2. cbn [map concat]. rewrite app_nil_r, sources_len. lia.
    + destruct Res as (-> & Sm & ->). change (match 0 with 0 => ?k | Npos _ => _ end) with k.
      assert (Iq : In q (p :: ps ++ hs)) by (right; apply in_or_app; right; exact I).
      destruct (ref_ok h' _ q H1 Iq) as (h2 & R2 & H2 & S2). unfold mbind at 1. rewrite R2.
      destruct (rd_ok h2 _ q l H2 (or_introl eq_refl)) as (x3 & R3 & V3 & _); [apply S2; apply Kh; assumption|]. unfold mbind. rewrite R3, V3, N.mod_small by lia.
      eexists _, h2, (lsa ++ [a; l]). split; [reflexivity|].
      assert (Es : all_sources (lsa ++ [a; l]) = all_sources (lsa ++ [a]) ++ sources l).
      { rewrite !all_sources_app. unfold all_sources at 2 4. cbn [map concat]. rewrite !app_nil_r, <- app_assoc. reflexivity. }
      split; [|split; [|split; [exact Es|split]]]; [| | |destruct lsa as [|y lsa]; cbn [app hd hd_error]; eexists; rewrite <- set_size_same at 1; reflexivity].
      * cbn [items]. eapply held_perm; [|exact H2]. rewrite <- app_assoc. cbn [app]. apply perm_trans with (q :: ps ++ p :: hs); [constructor; apply Permutation_middle|].
        apply perm_trans with (ps ++ q :: p :: hs); [apply Permutation_middle|]. apply Permutation_app_head. apply perm_swap.
      * constructor; cbn [items n_bytes].
        { apply Forall2_app.
          - eapply sees_keeps; [|exact Fa]. intros y b Y Sy. apply S2. apply Kp; assumption.
          - constructor; [apply S2; exact Sm|]. constructor; [apply S2; apply Kh; assumption|constructor]. }
        { apply Forall_app. split; [exact B1|]. constructor; [exact Za|]. constructor; [exact Z|constructor]. }
        { rewrite Es, len_app, all_sources_app, len_app, sources_len. unfold all_sources at 2. cbn [map concat]. rewrite app_nil_r, sources_len. rewrite C. lia. }
        { rewrite Es, len_app, all_sources_app, len_app, sources_len. unfold all_sources at 2. cbn [map concat]. rewrite app_nil_r, sources_len. lia. }
      * intros y b Y Sy. apply S2. apply Kh; assumption.
  - rewrite Sp in A, H. inversion A; subst. cbn [app] in H. rewrite C. unfold massert. change (len (all_sources []) =? 0) with true. unfold mbind at 1. unfold mbind at 1.
    destruct (ref_ok h hs q H I) as (h2 & R2 & H2 & S2). rewrite R2. eexists _, h2, [l]. split; [reflexivity|]. split; [exact H2|].
    split; [|split; [unfold all_sources; cbn [map concat]; rewrite app_nil_r; reflexivity|split; [intros y b Y Sy; apply S2; exact Sy|cbn [hd hd_error]; eexists; rewrite <- set_size_same at 1; reflexivity]]].
    constructor; cbn [items n_bytes].
    + constructor; [apply S2; exact S|constructor].
    + constructor; [exact Z|constructor].
    + unfold all_sources. cbn [map concat]. rewrite app_nil_r, sources_len. reflexivity.
    + unfold all_sources. cbn [map concat]. rewrite app_nil_r, sources_len. lia.
Qed.
Lemma put_ok h hs o q ls l : held h (items o ++ hs) -> has_locs h o ls -> In q hs -> sees h q l -> sized l -> len (all_sources ls) + size l < UINT64_MAX ->
  exists o' h' ls', put o q h = Some ((Ok 0, o'), h') /\ held h' (items o' ++ hs) /\ has_locs h' o' ls' /\ all_sources ls' = all_sources ls ++ sources l /\ keeps hs h h'.
Proof. intros H1 H2 H3 H4 H5 H6. destruct (put_ok_first h hs o q ls l H1 H2 H3 H4 H5 H6) as (o' & h' & ls' & A & B & C & D & E & _). exists o', h', ls'. auto. Qed.
