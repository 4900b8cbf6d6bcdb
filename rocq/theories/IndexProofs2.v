(** Sequential reading of whole index files; writing; seeking. *)
From Verif Require Import Base Chunker FeatureFlags FeatureFlagsSpec FeatureFlagsProofs Index IndexSpec IndexProofs.
Local Open Scope N_scope.

Lemma image_entries_len off l : Forall (fun c => length (fst c) = 32%nat) l -> len (image_entries off l) = 40 * len l.
Proof.
  revert off. induction l as [|[id sz] l IH]; intros off H; cbn [image_entries]; [reflexivity|].
  inversion H as [|? ? H1 H2]; subst. cbn [fst] in H1. rewrite !len_app, le64_len, IH, len_cons by exact H2. unfold len at 1. lia.
Qed.
Lemma chunk_ok_len ma l : Forall (chunk_ok ma) l -> Forall (fun c => length (fst c) = 32%nat) l.
Proof. apply Forall_impl. intros c (H & _). exact H. Qed.

Lemma image_split f mi av ma l : index_image f mi av ma l = head_bytes f mi av ma ++ image_entries 0 l ++ tail_of (16 + 40 * (len l + 1)).
Proof. unfold index_image, head_bytes, tail_of. rewrite <- !app_assoc. reflexivity. Qed.

Lemma tail_of_len n : len (tail_of n) = 40. Proof. reflexivity. Qed.
Lemma image_len f mi av ma l : Forall (chunk_ok ma) l -> len (index_image f mi av ma l) = 104 + 40 * len l.
Proof. intros H. rewrite image_split, !len_app, head_bytes_len, (image_entries_len 0 l) by (apply (chunk_ok_len ma), H). rewrite tail_of_len. lia. Qed.


(** From the bytes to the calls. *)
Lemma reading_scans data ma l : forall k off s, reading data ma k off s -> Forall (chunk_ok ma) l ->
  off + blob_size_of l < UINT64_MAX -> 16 + 40 * (k + len l + 1) < two64 ->
  dropN (64 + 40 * k) data = image_entries off l ++ tail_of (16 + 40 * (k + len l + 1)) ->
  scans s (entries_of off l).
Proof.
  induction l as [|[id sz] l IH]; intros k off s R H Hb Hk D; cbn [image_entries entries_of] in *.
  - cbn [app] in D. change (len (@nil chunk)) with 0 in *. rewrite N.add_0_r in *.
    destruct (reading_end data ma k off s R D Hk) as [s' E]. eapply scans_end, E.
  - inversion H as [|? ? (H1 & H2 & H3) H4]; subst. cbn [fst snd blob_size_of fold_right] in *. fold (blob_size_of l) in Hb.
    rewrite len_cons in *. rewrite <- !app_assoc in D.
    destruct (reading_next data ma k off s (off + sz) id _ R D) as (s' & E & R' & _); [assumption|lia|unfold UINT64_MAX, two64 in *; lia|lia|unfold UINT64_MAX in *; lia|].
    replace (off + sz - off) with sz in E by lia. eapply scans_next; [exact E|].
    apply (IH (k + 1) (off + sz) s' R' H4); [lia|lia|].
    replace (64 + 40 * (k + 1)) with (40 + (64 + 40 * k)) by lia. rewrite <- dropN_dropN, D.
    rewrite app_assoc. rewrite dropN_app_exact by (rewrite len_app, le64_len; unfold len; lia).
    do 3 f_equal. lia.
Qed.

(** From the calls to the bytes. *)
Lemma scans_reading data ma : bytes_ok data = true -> len data < 2 ^ 40 -> ma <= 134217728 ->
  forall es s, scans s es -> forall k off, reading data ma k off s -> off <= k * 134217728 -> 64 + 40 * k <= len data ->
  exists l, es = entries_of off l /\ Forall (chunk_ok ma) l /\ off + blob_size_of l < UINT64_MAX /\
    dropN (64 + 40 * k) data = image_entries off l ++ tail_of (16 + 40 * (k + len l + 1)).
Proof.
  intros Hb Hd Hma es s S. induction S as [s s' E|s e s' es E S IH]; intros k off R Hoff Hk.
  - assert (NX : off < UINT64_MAX) by (unfold UINT64_MAX; change (2 ^ 40) with 1099511627776 in Hd; lia).
    pose proof (reading_inv data ma k off s None s' Hb R ltac:(lia) E) as [D _].
    exists []. split; [reflexivity|]. split; [constructor|]. split; [cbn; lia|]. cbn. rewrite N.add_0_r. exact D.
  - assert (NX : off < UINT64_MAX) by (unfold UINT64_MAX; change (2 ^ 40) with 1099511627776 in Hd; lia).
    destruct e as [[id e] sz]. pose proof (reading_inv data ma k off s _ s' Hb R ltac:(lia) E) as (rest & D & Hid & Hidb & Hlt & He & Hsz & Hszm & R').
    assert (L : len (dropN (64 + 40 * k) data) = 40 + len rest) by (rewrite D, !len_app, le64_len; unfold len at 1; lia).
    rewrite len_dropN in L.
    destruct (IH (k + 1) e R' ltac:(lia) ltac:(lia)) as (l & El & Hl & Hbl & Dl).
    exists ((id, sz) :: l). cbn [entries_of image_entries]. replace (off + sz) with e by lia.
    split; [rewrite El; reflexivity|]. split; [constructor; [|exact Hl]; unfold chunk_ok; cbn [fst snd]; repeat split; auto; lia|].
    split; [cbn [blob_size_of fold_right snd]; fold (blob_size_of l); lia|].
    rewrite D, <- !app_assoc. do 2 f_equal.
    assert (X : rest = dropN (64 + 40 * (k + 1)) data).
    { replace (64 + 40 * (k + 1)) with (40 + (64 + 40 * k)) by lia. rewrite <- dropN_dropN, D, app_assoc, dropN_app_exact; [reflexivity|].
      rewrite len_app, le64_len. unfold len. lia. }
    rewrite X, Dl, len_cons. do 3 f_equal. lia.
Qed.

(** The reader as a whole. *)
Lemma opened_open f mi av ma data lim : index_open (opened f mi av ma data lim) = (Ok tt, opened f mi av ma data lim).
Proof. apply open_noop; cbn; [reflexivity|discriminate]. Qed.

Lemma scans_open s s1 es : index_open s = (Ok tt, s1) -> index_open s1 = (Ok tt, s1) -> (scans s es <-> scans s1 es).
Proof.
  intros H1 H2. pose proof (read_chunk_open s s1 H1 H2) as E. split; intros S; inversion S; subst.
  - eapply scans_end. rewrite <- E. eassumption.
  - eapply scans_next; [rewrite <- E|]; eassumption.
  - eapply scans_end. rewrite E. eassumption.
  - eapply scans_next; [rewrite E|]; eassumption.
Qed.

Lemma scans_opens s es : scans s es -> exists s1, index_open s = (Ok tt, s1).
Proof.
  intros S. inversion S as [? ? E|? ? ? ? E]; subst; unfold index_read_chunk in E; apply bind_Ok_inv in E as ([] & s1 & E & _); eauto.
Qed.

Lemma reader_exact data lim es : bytes_ok data = true -> len data < 2 ^ 40 ->
  (scans (fresh_reader data lim) es <->
   exists f mi av ma l, params_ok f mi av ma /\ chunks_ok ma l /\ data = index_image f mi av ma l /\ es = entries_of 0 l).
Proof.
  intros Hb Hd. split.
  - intros S. destruct (scans_opens _ _ S) as [s1 O]. pose proof O as O'. apply open_read_ok in O' as (f & mi & av & ma & rest & P & E & ->); [|exact Hb].
    apply (scans_open _ _ es O (opened_open f mi av ma data lim)) in S.
    assert (Hl : 64 <= len data) by (rewrite E, len_app, head_bytes_len; lia).
    destruct (scans_reading data ma Hb Hd ltac:(destruct P as (_ & _ & _ & _ & P); exact P) es _ S 0 0 (opened_reading f mi av ma data lim) ltac:(lia) ltac:(lia))
      as (l & El & Hlk & Hbl & D).
    exists f, mi, av, ma, l. split; [exact P|]. split; [split; [exact Hlk|exact Hbl]|]. split; [|exact El].
    rewrite image_split, E. f_equal. change (64 + 40 * 0) with 64 in D. rewrite E, dropN_app_exact in D by reflexivity. exact D.
  - intros (f & mi & av & ma & l & P & (Hl & Hbl) & E & ->).
    assert (O : index_open (fresh_reader data lim) = (Ok tt, opened f mi av ma data lim)).
    { apply open_read_ok; [exact Hb|]. exists f, mi, av, ma. eexists. split; [exact P|]. split; [|reflexivity]. rewrite E. apply image_split. }
    apply (scans_open _ _ _ O (opened_open f mi av ma data lim)).
    apply (reading_scans data ma l 0 0 _ (opened_reading f mi av ma data lim) Hl); [exact Hbl| |].
    + rewrite E, image_len in Hd by exact Hl.
      change (2 ^ 40) with 1099511627776 in Hd. unfold two64. lia.
    + rewrite E, image_split. change (64 + 40 * 0) with 64. rewrite dropN_app_exact by reflexivity. reflexivity.
Qed.

(** Images determine their contents. *)
Lemma entries_of_inj off l l' : entries_of off l = entries_of off l' -> l = l'.
Proof.
  revert off l'. induction l as [|[id sz] l IH]; intros off [|[id' sz'] l'] H; try discriminate; [reflexivity|].
  cbn in H. injection H as H1 H2 H3 H4. subst. f_equal. eapply IH, H4.
Qed.
Lemma entries_of_len off l : length (entries_of off l) = length l.
Proof. revert off. induction l as [|[id sz] l IH]; intros; cbn; [reflexivity|]. rewrite IH. reflexivity. Qed.

Lemma image_entries_ok off l ma : Forall (chunk_ok ma) l -> bytes_ok (image_entries off l) = true.
Proof.
  revert off. induction l as [|[id sz] l IH]; intros off H; cbn [image_entries]; [reflexivity|].
  inversion H as [|? ? (H1 & H2 & H3) H4]; subst. cbn [fst] in *. rewrite !bytes_ok_app, H2, (IH _ H4). unfold le64. rewrite le_enc_ok. reflexivity.
Qed.
Lemma image_ok f mi av ma l : Forall (chunk_ok ma) l -> bytes_ok (index_image f mi av ma l) = true.
Proof.
  intros H. rewrite image_split, !bytes_ok_app, (image_entries_ok _ _ ma H). unfold head_bytes, tail_of, le64. rewrite !bytes_ok_app, !le_enc_ok. reflexivity.
Qed.
(** A proper prefix of the entries and tail never reads as a complete table. *)
Lemma no_prefix off ma l : forall l' n n' rest, Forall (chunk_ok ma) l -> Forall (chunk_ok ma) l' -> off + blob_size_of l < UINT64_MAX -> off + blob_size_of l' < UINT64_MAX ->
  image_entries off l ++ tail_of n = (image_entries off l' ++ tail_of n') ++ rest -> rest = [].
Proof.
  revert off. induction l as [|[id sz] l IH]; intros off l' n n' rest H H' Hb Hb' E.
  - destruct l' as [|[id' sz'] l']; cbn [image_entries app] in E.
    + assert (L : len (tail_of n) = len (tail_of n' ++ rest)) by (rewrite E; reflexivity).
      rewrite len_app in L. rewrite !tail_of_len in L. apply len_zero_nil. lia.
    + exfalso. apply (f_equal (@len N)) in E. rewrite <- !app_assoc, !len_app in E. rewrite ?tail_of_len in E.
      rewrite le64_len in E. inversion H' as [|? ? (H1 & _) _]; subst. cbn [fst] in H1. unfold len at 2 in E. lia.
  - inversion H as [|? ? (H1 & H2 & H3) H4]; subst. cbn [fst snd] in *. cbn [blob_size_of fold_right snd] in Hb. fold (blob_size_of l) in Hb.
    destruct l' as [|[id' sz'] l']; cbn [image_entries app] in E; rewrite <- !app_assoc in E.
    + exfalso. unfold tail_of in E at 2. rewrite <- !app_assoc in E. apply app_inj_len in E as [E _]; [|reflexivity].
      apply le_enc_inj in E; [lia|rewrite pow256_8; unfold UINT64_MAX, two64 in *; lia|rewrite pow256_8; unfold two64; lia].
    + inversion H' as [|? ? (H1' & H2' & H3') H4']; subst. cbn [fst snd] in *.
      apply app_inj_len in E as [E1 E]; [|reflexivity]. apply app_inj_len in E as [E2 E]; [|congruence].
      cbn [blob_size_of fold_right snd] in Hb'. fold (blob_size_of l') in Hb'.
      apply le_enc_inj in E1; [|rewrite pow256_8; unfold UINT64_MAX, two64 in *; lia|rewrite pow256_8; unfold UINT64_MAX, two64 in *; lia].
      rewrite E1 in *. eapply (IH (off + sz') l' n n' rest H4 H4'); [lia|lia|]. rewrite <- app_assoc; exact E.
Qed.

Lemma head_bytes_inj f mi av ma f' mi' av' ma' : params_ok f mi av ma -> params_ok f' mi' av' ma' ->
  head_bytes f mi av ma = head_bytes f' mi' av' ma' -> f = f' /\ mi = mi' /\ av = av' /\ ma = ma'.
Proof.
  intros P P' E. assert (B : bytes_ok (head_bytes f mi av ma) = true) by (unfold head_bytes, le64; rewrite !bytes_ok_app, !le_enc_ok; reflexivity).
  pose proof (proj2 (head_check_spec _ f mi av ma B) (conj P eq_refl)) as C.
  pose proof (proj2 (head_check_spec _ f' mi' av' ma' B) (conj P' E)) as C'. rewrite C in C'. inversion C'. auto.
Qed.

Lemma image_prefix f mi av ma l f' mi' av' ma' l' rest :
  params_ok f mi av ma -> params_ok f' mi' av' ma' -> chunks_ok ma l -> chunks_ok ma' l' ->
  index_image f mi av ma l = index_image f' mi' av' ma' l' ++ rest -> rest = [].
Proof.
  intros P P' (Hl & Hb) (Hl' & Hb') E. rewrite !image_split, <- app_assoc in E.
  apply app_inj_len in E as [E1 E2]; [|reflexivity].
  apply head_bytes_inj in E1 as (<- & <- & <- & <-); [|assumption..].
  eapply (no_prefix 0 ma l l'); eauto.
Qed.
