(** Garbage collection: which ids are collected from the indexes. *)
From Verif Require Import Base Chunker FeatureFlags FeatureFlagsSpec ChunkId ChunkIdProofs Index IndexSpec IndexProofs IndexProofs2 Posix ChunkFile Gc.
Local Open Scope N_scope.

Definition add_ids (used : list (list N)) (ids : list (list N)) : list (list N) := fold_left gc_add_chunk_id ids used.

Lemma contains_In used id : used_contains used id = true <-> In id used.
Proof.
  unfold used_contains. rewrite existsb_exists. unfold chunk_id_equal. split.
  - intros (x & H & E). apply beq_eq in E. congruence.
  - intros H. exists id. split; [exact H|apply beq_refl].
Qed.

Lemma contains_false used id : used_contains used id = false <-> ~ In id used.
Proof. rewrite <- contains_In. destruct (used_contains used id); split; congruence. Qed.

Lemma add_id_In used id x : In x (gc_add_chunk_id used id) <-> In x used \/ x = id.
Proof.
  unfold gc_add_chunk_id. destruct (used_contains used id) eqn:E.
  - apply contains_In in E. split; [auto|]. intros [H | ->]; assumption.
  - rewrite in_app_iff. cbn [In]. split; [intros [H|[H|[]]]; auto|intros [H|H]; subst; auto].
Qed.

Lemma add_ids_In ids : forall used x, In x (add_ids used ids) <-> In x used \/ In x ids.
Proof.
  induction ids as [|id ids IH]; intros used x; cbn [add_ids fold_left].
  - cbn [In]. tauto.
  - change (fold_left gc_add_chunk_id ids (gc_add_chunk_id used id)) with (add_ids (gc_add_chunk_id used id) ids).
    rewrite IH, add_id_In. cbn [In]. split; intros; intuition congruence.
Qed.

Definition ids_of (es : list (list N * N * N)) : list (list N) := map (fun e => fst (fst e)) es.

Lemma loop_scans fuel : forall s used u, add_index_loop fuel s used = Some (Ok u) ->
  exists es, scans s es /\ u = add_ids used (ids_of es).
Proof.
  induction fuel as [|fuel IH]; intros s used u H; cbn [add_index_loop] in H; [discriminate|].
  destruct (index_read_chunk s) as [[[[[id off] sz]|]|e| |] s'] eqn:E; try discriminate.
  - destruct (IH _ _ _ H) as (es & Hs & ->). exists ((id, off, sz) :: es). split; [econstructor; eauto|reflexivity].
  - injection H as <-. exists []. split; [econstructor; eauto|reflexivity].
Qed.

Lemma scans_loop s es : scans s es -> forall fuel used, (length es < fuel)%nat -> add_index_loop fuel s used = Some (Ok (add_ids used (ids_of es))).
Proof.
  induction 1 as [s s' E|s [[id off] sz] s' l E Hs IH]; intros fuel used Hf; (destruct fuel as [|fuel]; [cbn in Hf; lia|]); cbn [add_index_loop]; rewrite E.
  - reflexivity.
  - rewrite IH by (cbn [length] in Hf; lia). reflexivity.
Qed.

Lemma open_twice data lim s : index_open (fresh_reader data lim) = (Ok tt, s) -> x_open s = true /\ x_start s <> 0.
Proof.
  rewrite open_read_eq. pose proof (head_check_not_again (takeN 64 data)) as NA.
  destruct (head_check (takeN 64 data)) as [[[[f mi] av] ma]|e| |]; try discriminate.
  - intros H. assert (s = upd_sizes mi av ma (upd_flags f (upd_offs 64 64 (upd_file data (len (takeN 64 data)) (opened0 data lim))))) as -> by congruence.
    split; [reflexivity|discriminate].
  - destruct e; try discriminate. congruence.
Qed.

Lemma scans_open data lim s es : index_open (fresh_reader data lim) = (Ok tt, s) -> (scans s es <-> scans (fresh_reader data lim) es).
Proof.
  intros H. destruct (open_twice _ _ _ H) as [H1 H2].
  pose proof (read_chunk_open _ _ H (open_noop _ H1 H2)) as E.
  split; intros S; inversion S as [? ? R|? ? ? ? R S']; subst.
  - econstructor. rewrite E. exact R.
  - econstructor; [rewrite E; exact R|exact S'].
  - econstructor. rewrite <- E. exact R.
  - econstructor; [rewrite <- E; exact R|exact S'].
Qed.

Lemma scans_opens data lim es : scans (fresh_reader data lim) es -> exists s, index_open (fresh_reader data lim) = (Ok tt, s).
Proof.
  intros S. assert (exists r s', index_read_chunk (fresh_reader data lim) = (Ok r, s')) as (r & s' & R) by (inversion S; eauto).
  unfold index_read_chunk in R. apply bind_Ok_inv in R. destruct R as ([] & s & R & _). eauto.
Qed.

Lemma scans_fun s es : scans s es -> forall es', scans s es' -> es' = es.
Proof.
  induction 1 as [s s' E|s e s' l E Hs IH]; intros es' S; inversion S as [? ? R|? ? ? ? R S']; subst; [reflexivity|congruence|congruence|].
  assert (e0 = e /\ s'0 = s') as [-> ->] by (split; congruence). f_equal. apply IH. exact S'.
Qed.

Lemma add_index_ok fuel data used u : add_index fuel (Some data) used = Some (Ok u) ->
  exists es, scans (fresh_reader data 0) es /\ u = add_ids used (ids_of es).
Proof.
  unfold add_index. change (index_new CA_INDEX_READ (Some data) 0) with (fresh_reader data 0).
  destruct (index_open (fresh_reader data 0)) as [[[]|e| |] s] eqn:E; try discriminate. intros H.
  apply loop_scans in H. destruct H as (es & S & ->). exists es. split; [|reflexivity]. apply (proj1 (scans_open _ _ _ es E)). exact S.
Qed.

Lemma add_index_scans fuel data es used : scans (fresh_reader data 0) es -> (length es < fuel)%nat ->
  add_index fuel (Some data) used = Some (Ok (add_ids used (ids_of es))).
Proof.
  intros S Hf. destruct (scans_opens _ _ _ S) as [s E]. unfold add_index. change (index_new CA_INDEX_READ (Some data) 0) with (fresh_reader data 0).
  rewrite E. apply scans_loop; [|exact Hf]. apply (proj2 (scans_open _ _ _ es E)). exact S.
Qed.

Lemma add_index_none fuel used : add_index fuel None used = Some (Err ENOENT).
Proof. reflexivity. Qed.

(** The loop comes to an end, whatever the bytes are: a round takes 40 of them. *)
Lemma read_step s e s' : x_open s = true -> x_start s <> 0 -> x_mode s = CA_INDEX_READ -> index_read_chunk s = (Ok (Some e), s') ->
  x_open s' = true /\ x_start s' <> 0 /\ x_mode s' = CA_INDEX_READ /\ x_data s' = x_data s /\ x_fpos s' = x_fpos s + 40 /\ x_fpos s + 40 <= len (x_data s).
Proof.
  intros Ho Hs Hm. rewrite read_chunk_eq; [|assumption|assumption|rewrite Hm; reflexivity|apply enough_read, Hm]. cbv zeta.
  destruct (N.eqb_spec (len (file_pread (x_data s) (x_fpos s) 40)) 40) as [L|]; [|discriminate].
  assert (x_fpos s + 40 <= len (x_data s)) as Hle by (unfold file_pread in L; rewrite len_takeN, len_dropN in L; lia).
  unfold entry_result. destruct (tail_test _ _); [destruct (_ =? 0); discriminate|].
  destruct (negb _); [discriminate|]. destruct (negb _); [discriminate|]. intros H.
  assert (s' = upd_offs (x_start s) (x_cooked s + 40) (upd_item (x_item s + 1) (upd_prev (rd64 (file_pread (x_data s) (x_fpos s) 40)) (upd_file (x_data s) (x_fpos s + 40) s)))) as -> by congruence.
  destruct s; cbn in *. repeat split; assumption.
Qed.

Lemma read_no_ub s : x_open s = true -> x_start s <> 0 -> x_mode s = CA_INDEX_READ -> fst (index_read_chunk s) <> UB.
Proof.
  intros Ho Hs Hm. rewrite read_chunk_eq; [|assumption|assumption|rewrite Hm; reflexivity|apply enough_read, Hm]. cbv zeta.
  destruct (_ =? 40); [|discriminate]. unfold entry_result. destruct (tail_test _ _); [destruct (_ =? 0); discriminate|].
  destruct (negb _); [discriminate|]. destruct (negb _); discriminate.
Qed.

Lemma loop_ends fuel : forall s used, x_open s = true -> x_start s <> 0 -> x_mode s = CA_INDEX_READ -> len (x_data s) < x_fpos s + 40 * N.of_nat fuel ->
  exists r, add_index_loop (S fuel) s used = Some r /\ r <> UB.
Proof.
  induction fuel as [|fuel IH]; intros s used Ho Hs Hm Hf.
  - cbn [add_index_loop]. pose proof (read_no_ub s Ho Hs Hm) as NU. destruct (index_read_chunk s) as [[[[[id off] sz]|]|e| |] s'] eqn:E; cbn [fst] in NU;
      try (eexists; split; [reflexivity|discriminate || congruence]).
    destruct (read_step _ _ _ Ho Hs Hm E) as (_ & _ & _ & _ & _ & H). lia.
  - change (exists r, match index_read_chunk s with
      | (Ok None, _) => Some (Ok used)
      | (Ok (Some (id, _, _)), s') => add_index_loop (S fuel) s' (gc_add_chunk_id used id)
      | (Err _, _) => Some Abort | (Abort, _) => Some Abort | (UB, _) => Some UB end = Some r /\ r <> UB).
    pose proof (read_no_ub s Ho Hs Hm) as NU. destruct (index_read_chunk s) as [[[[[id off] sz]|]|e| |] s'] eqn:E; cbn [fst] in NU;
      try (eexists; split; [reflexivity|discriminate || congruence]).
    destruct (read_step _ _ _ Ho Hs Hm E) as (H1 & H2 & H3 & H4 & H5 & H6). apply IH; auto. rewrite H4, H5. lia.
Qed.

Lemma open_mode data lim s : index_open (fresh_reader data lim) = (Ok tt, s) -> x_mode s = CA_INDEX_READ /\ x_data s = data.
Proof.
  rewrite open_read_eq. pose proof (head_check_not_again (takeN 64 data)) as NA.
  destruct (head_check (takeN 64 data)) as [[[[f mi] av] ma]|e| |]; try discriminate.
  - intros H. assert (s = upd_sizes mi av ma (upd_flags f (upd_offs 64 64 (upd_file data (len (takeN 64 data)) (opened0 data lim))))) as -> by congruence.
    split; reflexivity.
  - destruct e; try discriminate. congruence.
Qed.

Lemma head_check_no_ub h : head_check h <> UB.
Proof.
  unfold head_check, feature_flags_are_normalized.
  repeat match goal with |- context [if ?c then _ else _] => destruct c end; try discriminate.
Qed.

Lemma add_index_ends fuel file used : (forall data, file = Some data -> len data < 40 * N.of_nat fuel) ->
  exists r, add_index fuel file used = Some r /\ r <> UB.
Proof.
  destruct file as [data|]; intros Hf; [|rewrite add_index_none; eexists; split; [reflexivity|discriminate]]. specialize (Hf data eq_refl).
  unfold add_index. change (index_new CA_INDEX_READ (Some data) 0) with (fresh_reader data 0).
  destruct (index_open (fresh_reader data 0)) as [[[]|e| |] s] eqn:E; try (eexists; split; [reflexivity|discriminate]).
  - destruct (open_twice _ _ _ E) as [H1 H2]. destruct (open_mode _ _ _ E) as [H3 H4]. destruct fuel as [|fuel]; [lia|].
    apply loop_ends; auto. rewrite H4.
    assert (64 <= x_fpos s).
    { clear -E. rewrite open_read_eq in E. pose proof (head_check_not_again (takeN 64 data)) as NA.
      destruct (head_check (takeN 64 data)) as [[[[f mi] av] ma]|e| |] eqn:C; try discriminate.
      - assert (s = upd_sizes mi av ma (upd_flags f (upd_offs 64 64 (upd_file data (len (takeN 64 data)) (opened0 data 0))))) as -> by congruence.
        cbn. unfold head_check in C. destruct (N.eqb_spec (len (takeN 64 data)) 64); [lia|discriminate].
      - destruct e; try discriminate. congruence. }
    lia.
  - exfalso. rewrite open_read_eq in E. pose proof (head_check_no_ub (takeN 64 data)) as NU.
    destruct (head_check (takeN 64 data)) as [[[[f mi] av] ma]|e| |]; try discriminate; [destruct e; discriminate|congruence].
Qed.

Lemma add_indexes_ends fuel files : forall used, (forall data, In (Some data) files -> len data < 40 * N.of_nat fuel) ->
  exists r, add_indexes fuel files used = Some r /\ r <> UB.
Proof.
  induction files as [|f files IH]; intros used Hf; cbn [add_indexes]; [eexists; split; [reflexivity|discriminate]|].
  destruct (add_index_ends fuel f used) as (r & E & NU); [intros data ->; apply Hf; left; reflexivity|]. rewrite E.
  destruct r as [u|e| |]; [|eexists; split; [reflexivity|discriminate]..|congruence]. apply IH. intros data Hin. apply Hf. right. exact Hin.
Qed.

Lemma add_indexes_ok fuel files : forall used u, add_indexes fuel files used = Some (Ok u) ->
  (forall x, In x used -> In x u) /\
  (forall f, In f files -> exists data es, f = Some data /\ scans (fresh_reader data 0) es /\ forall x, In x (ids_of es) -> In x u) /\
  (forall x, In x u -> In x used \/ exists data es, In (Some data) files /\ scans (fresh_reader data 0) es /\ In x (ids_of es)).
Proof.
  induction files as [|f files IH]; intros used u H; cbn [add_indexes] in H.
  - assert (u = used) as -> by congruence. split; [auto|]. split; [intros f []|auto].
  - destruct (add_index fuel f used) as [[u1|e| |]|] eqn:E; try discriminate.
    destruct f as [data|]; [|rewrite add_index_none in E; discriminate].
    destruct (add_index_ok _ _ _ _ E) as (es & S & ->). destruct (IH _ _ H) as (H1 & H2 & H3). split; [|split].
    + intros x Hx. apply H1. apply add_ids_In. auto.
    + intros f [<-|Hf]; [|apply H2; exact Hf]. exists data, es. split; [reflexivity|]. split; [exact S|].
      intros x Hx. apply H1. apply add_ids_In. auto.
    + intros x Hx. destruct (H3 x Hx) as [Hu|(d & es' & Hd & S' & Hx')].
      * apply add_ids_In in Hu. destruct Hu as [Hu|Hu]; [auto|]. right. exists data, es. split; [left; reflexivity|auto].
      * right. exists d, es'. split; [right; exact Hd|auto].
Qed.

Lemma add_indexes_all fuel files : forall used,
  (forall f, In f files -> exists data es, f = Some data /\ scans (fresh_reader data 0) es) ->
  (forall data, In (Some data) files -> len data < 40 * N.of_nat fuel) ->
  exists u, add_indexes fuel files used = Some (Ok u).
Proof.
  induction files as [|f files IH]; intros used Hs Hf; cbn [add_indexes]; [eauto|].
  destruct (Hs f (or_introl eq_refl)) as (data & es & -> & S).
  destruct (add_index_ends fuel (Some data) used) as (r & E & _); [intros d Hd; injection Hd as <-; apply Hf; left; reflexivity|].
  assert (exists u, r = Ok u) as [u ->].
  { destruct (scans_opens _ _ _ S) as [s O]. unfold add_index in E. change (index_new CA_INDEX_READ (Some data) 0) with (fresh_reader data 0) in E. rewrite O in E.
    apply (scans_open _ _ _ es O) in S. clear -E S. revert s used es S E. induction fuel as [|fuel IH]; intros s used es S E; [discriminate|].
    inversion S as [? s' R|? [[id off] sz] s' l R S']; subst; cbn [add_index_loop] in E; rewrite R in E.
    - injection E as <-. eauto.
    - eapply IH; eauto. }
  rewrite E. apply IH; [intros f Hin; apply Hs; right; exact Hin|intros d Hd; apply Hf; right; exact Hd].
Qed.
