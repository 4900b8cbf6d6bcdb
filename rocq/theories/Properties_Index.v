(** C10, C11, C12, C13, C43: index files. *)
From Verif Require Import Base Chunker FeatureFlags FeatureFlagsSpec FeatureFlagsProofs Index IndexSpec IndexRun IndexProofs IndexProofs2 IndexProofs3 IndexProofs4 IndexProofs5 IndexProofs6.
Local Open Scope N_scope.

Lemma bind_same {A B} (m : op A) (k : A -> op B) s s' : m s = m s' -> bindM m k s = bindM m k s'.
Proof. unfold bindM. intros ->. reflexivity. Qed.

(** C10. Configuring a writer, writing any chunks, and installing succeeds if there is the space, and
    reading the installed file gives back flags, sizes, the number of chunks, the size of the blob and
    every chunk in order, then the end; and nothing else. *)
Theorem index_round_trip :
  forall mode fin lim flags f mi av ma l,
  mode = CA_INDEX_WRITE \/ mode = CA_INDEX_INCREMENTAL_WRITE ->
  feature_flags_normalize flags = Ok f -> params_ok f mi av ma -> chunks_ok ma l -> len l < 2 ^ 34 ->
  104 + 40 * len l <= lim ->
  exists tr w image,
    wrun ([WSetFlags flags; WSetMin mi; WSetAvg av; WSetMax ma] ++ write_all l ++ [WEof; WInstall]) (index_new mode fin lim) = (tr, w) /\
    Forall (fun x => exists d, snd x = Ok d) tr /\
    x_final w = Some image /\
    forall lim',
    let r := index_new CA_INDEX_READ (Some image) lim' in
    (forall es, scans r es <-> es = entries_of 0 l) /\
    fst (index_get_total_chunks r) = Ok (len l) /\
    fst (index_get_blob_size r) = Ok (blob_size_of l) /\
    exists r', index_open r = (Ok tt, r') /\
      fst (index_get_feature_flags r') = Ok f /\ fst (index_get_available_chunks r') = Ok (len l) /\
      fst (index_get_chunk_size x_min r') = Ok mi /\ fst (index_get_chunk_size x_avg r') = Ok av /\ fst (index_get_chunk_size x_max r') = Ok ma.
Proof.
  intros mode fin lim flags f mi av ma l Hm Hf P C Sm Hl.
  assert (M : is_write_mode mode = true) by (destruct Hm; subst; reflexivity).
  destruct (writer_complete mode fin lim flags f mi av ma l M Hf P (proj1 C)) as (tr & w & R & F & Fi); [destruct C as [_ C]; unfold UINT64_MAX, two64 in *; lia|exact Hl|].
  exists tr, w, (index_image f mi av ma l). split; [exact R|]. split; [exact F|]. split; [exact Fi|]. intros lim' r.
  set (data := index_image f mi av ma l) in *.
  assert (Hb : bytes_ok data = true) by (eapply image_ok, C).
  assert (Hd : len data < 2 ^ 40). { unfold data. rewrite image_len by apply C. change (2 ^ 34) with 17179869184 in Sm. change (2 ^ 40) with 1099511627776. lia. }
  assert (O : index_open r = (Ok tt, opened f mi av ma data lim')).
  { apply open_read_ok; [exact Hb|]. exists f, mi, av, ma. eexists. split; [exact P|]. split; [apply image_split|reflexivity]. }
  pose proof (opened_attached f mi av ma l lim') as A. fold data in A. set (r' := opened f mi av ma data lim') in *.
  assert (O' : index_open r' = (Ok tt, r')) by apply opened_open.
  assert (SZ : index_get_index_size r = index_get_index_size r') by (unfold index_get_index_size; rewrite (bind_ok _ _ _ _ _ O), (bind_ok _ _ _ _ _ O'); reflexivity).
  split; [|split; [|split]].
  - intros es. change r with (fresh_reader data lim'). rewrite (reader_exact data lim' es Hb Hd). split.
    + intros (f' & mi' & av' & ma' & l' & P' & C' & E & ->).
      assert (X : scans (fresh_reader data lim') (entries_of 0 l)) by (apply reader_exact; [exact Hb|exact Hd|]; exists f, mi, av, ma, l; repeat (split; [assumption||reflexivity|]); reflexivity).
      assert (Y : scans (fresh_reader data lim') (entries_of 0 l')) by (apply reader_exact; [exact Hb|exact Hd|]; exists f', mi', av', ma', l'; repeat (split; [assumption||reflexivity|]); reflexivity).
      clear -X Y. revert Y. generalize (entries_of 0 l') as es'. generalize dependent (entries_of 0 l). intros es X. induction X as [s s' E|s e s' es E X IH]; intros es' Y; inversion Y as [? ? E'|? ? ? ? E' Y']; subst; rewrite E in E'.
      * reflexivity.
      * discriminate.
      * discriminate.
      * assert (e0 = e /\ s'0 = s') as [-> ->] by (split; congruence). f_equal. apply IH, Y'.
    + intros ->. exists f, mi, av, ma, l. repeat (split; [assumption||reflexivity|]). reflexivity.
  - replace (index_get_total_chunks r) with (index_get_total_chunks r') by (symmetry; apply bind_same, SZ). rewrite (att_total f mi av ma l C Sm r' A). reflexivity.
  - destruct (att_blob f mi av ma l C Sm r' A) as (s' & T & _).
    replace (index_get_blob_size r) with (index_get_blob_size r'); [rewrite T; reflexivity|].
    unfold index_get_blob_size. rewrite !bind_get. change (x_blob r) with UINT64_MAX. change (x_blob r') with UINT64_MAX. rewrite N.eqb_refl.
    apply bind_same. apply bind_same. symmetry. exact SZ.
  - exists r'. split; [exact O|]. destruct P as (P1 & P2 & P3 & P4 & P5).
    split; [|split; [rewrite (att_available f mi av ma l C Sm r' A); reflexivity|]].
    + unfold index_get_feature_flags. rewrite bind_get, bind_guard. change (x_flags r') with f. destruct (normalized_known f _ P1) as [_ N1].
      destruct (N.eqb_spec f UINT64_MAX); [contradiction|]. reflexivity.
    + unfold index_get_chunk_size. rewrite !bind_get, !bind_guard. change (x_min r') with mi. change (x_avg r') with av. change (x_max r') with ma.
      replace (mi =? 0) with false by lia. replace (av =? 0) with false by lia. replace (ma =? 0) with false by lia. repeat split.
Qed.
Print Assumptions index_round_trip.

Definition sample_id (b : N) : list N := repeat b 32.
Definition sample_chunks : list (list N * N) := [(sample_id 1, 100); (sample_id 2, 70); (sample_id 1, 100); (sample_id 9, 3)].
Example c10_case :
  params_ok FORMAT_DEFAULT 16 64 256 /\ chunks_ok 256 sample_chunks /\ feature_flags_normalize FORMAT_DEFAULT = Ok FORMAT_DEFAULT /\
  entries_of 0 sample_chunks = [(sample_id 1, 100, 100); (sample_id 2, 170, 70); (sample_id 1, 270, 100); (sample_id 9, 273, 3)].
Proof.
  split; [vm_compute; repeat split; discriminate|]. split; [|split; [vm_compute; reflexivity|reflexivity]].
  split; [|vm_compute; reflexivity]. repeat (constructor; try (vm_compute; repeat split; (reflexivity || discriminate))).
Qed.

(** C11. Reading in order to a clean end is possible exactly for the files of the documented format with
    valid parameters and chunks: whatever else is in a file (entries out of order or too long, bad
    parameters, bytes after the tail, ...), reading it reports an error instead of its end. *)
Theorem index_reader_exact :
  forall data lim es, bytes_ok data = true -> len data < 2 ^ 40 ->
  (scans (index_new CA_INDEX_READ (Some data) lim) es <->
   exists f mi av ma l, params_ok f mi av ma /\ chunks_ok ma l /\ data = index_image f mi av ma l /\ es = entries_of 0 l).
Proof. exact reader_exact. Qed.
Print Assumptions index_reader_exact.

(** C11. A proper prefix of an index is never read to a clean end, wherever it was cut. *)
Theorem index_truncated :
  forall f mi av ma l data rest lim es,
  params_ok f mi av ma -> chunks_ok ma l -> len l < 2 ^ 34 ->
  index_image f mi av ma l = data ++ rest -> rest <> [] ->
  ~ scans (index_new CA_INDEX_READ (Some data) lim) es.
Proof.
  intros f mi av ma l data rest lim es P C Sm E Hr S.
  assert (Hb : bytes_ok (index_image f mi av ma l) = true) by (eapply image_ok, C). rewrite E, bytes_ok_app in Hb. apply andb_true_iff in Hb as [Hb _].
  assert (Hd : len data < 2 ^ 40).
  { apply (f_equal (@len N)) in E. rewrite image_len, len_app in E by apply C. change (2 ^ 34) with 17179869184 in Sm. change (2 ^ 40) with 1099511627776. lia. }
  apply (reader_exact data lim es Hb Hd) in S as (f' & mi' & av' & ma' & l' & P' & C' & -> & _).
  apply Hr. eapply image_prefix; [exact P|exact P'|exact C|exact C'|exact E].
Qed.
Print Assumptions index_truncated.

(** C11. Likewise for bytes appended. *)
Theorem index_trailing_bytes :
  forall f mi av ma l rest lim es,
  params_ok f mi av ma -> chunks_ok ma l -> len (index_image f mi av ma l ++ rest) < 2 ^ 40 -> bytes_ok rest = true -> rest <> [] ->
  ~ scans (index_new CA_INDEX_READ (Some (index_image f mi av ma l ++ rest)) lim) es.
Proof.
  intros f mi av ma l rest lim es P C Hd Hb Hr S.
  apply reader_exact in S as (f' & mi' & av' & ma' & l' & P' & C' & E & _); [|rewrite bytes_ok_app, Hb, (image_ok f mi av ma l) by apply C; reflexivity|exact Hd].
  apply Hr. symmetry in E. eapply image_prefix; [exact P'|exact P|exact C'|exact C|exact E].
Qed.
Print Assumptions index_trailing_bytes.

Example c11_case :
  let r := index_new CA_INDEX_READ (Some (takeN 150 (index_image FORMAT_DEFAULT 16 64 256 sample_chunks))) 1000 in
  fst (index_read_chunk r) = Ok (Some (sample_id 1, 100, 100)) /\
  fst (index_read_chunk (snd (index_read_chunk (snd (index_read_chunk r))))) = Err EPIPE.
Proof. vm_compute. split; reflexivity. Qed.

(** C12. No call other than a successful install changes what is at the path, whatever happened before. *)
Theorem index_only_install_publishes :
  forall o s, o <> WInstall -> x_final (snd (wstep o s)) = x_final s.
Proof. exact wstep_final. Qed.
Print Assumptions index_only_install_publishes.

(** C12. In every history of calls in which the disk did not get full: before install succeeds the old
    file is at the path; from then on exactly the complete index of all the chunks whose writing
    succeeded, in order, is there, whatever is called afterwards; and it succeeds only after the end
    was written. *)
Theorem index_published_complete :
  forall mode fin lim h tr s,
  mode = CA_INDEX_WRITE \/ mode = CA_INDEX_INCREMENTAL_WRITE -> Forall wop_ok h ->
  wrun h (index_new mode fin lim) = (tr, s) -> ~ out_of_space tr ->
  if trace_installed tr
  then trace_eof tr = true /\ exists f mi av ma, params_ok f mi av ma /\ x_final s = Some (index_image f mi av ma (trace_chunks tr))
  else x_final s = fin.
Proof.
  intros mode fin lim h tr s Hm Ho R Hn.
  assert (M : is_write_mode mode = true) by (destruct Hm; subst; reflexivity).
  destruct (wrun_winv fin h _ _ tr s Ho (winv_new mode fin lim M) R Hn) as (g' & W & C & E & I & _ & _). cbn [g_chunks g_eof g_inst app orb] in *.
  pose proof (v_final _ _ _ W) as F. rewrite I in F. destruct (trace_installed tr) eqn:T; [|exact F].
  assert (Eo : g_eof g' = true) by (apply (v_inst_eof _ _ _ W), I). split; [congruence|].
  destruct (g_hdr g') as [[[[f mi] av] ma]|] eqn:H; [|exfalso; exact (v_eof_hdr _ _ _ W Eo H)].
  exists f, mi, av, ma. split; [apply (v_hdr _ _ _ W), H|]. rewrite F. unfold img. rewrite H, Eo, C, image_split. reflexivity.
Qed.
Print Assumptions index_published_complete.

(** C12, the limit of that: if the disk gets full and the caller goes on nevertheless once there is space
    again, what is installed is not a readable index. *)
Theorem index_published_after_enospc_refuted :
  exists h tr s image, Forall wop_ok h /\ wrun h (index_new CA_INDEX_WRITE None 110) = (tr, s) /\
  trace_installed tr = true /\ x_final s = Some image /\ forall es, ~ scans (index_new CA_INDEX_READ (Some image) 1000) es.
Proof.
  exists [WSetMin 16; WSetAvg 64; WSetMax 256; WChunk (sample_id 1) 100; WChunk (sample_id 2) 70; WSpace 1000; WChunk (sample_id 2) 70; WEof; WInstall].
  eexists. eexists. eexists. split; [repeat (constructor; try (vm_compute; repeat split; (reflexivity || discriminate)))|]. split; [vm_compute; reflexivity|]. split; [reflexivity|]. split; [reflexivity|].
  intros es S. inversion S as [? ? E|? ? ? ? E S']; subst; vm_compute in E; [discriminate|]. injection E as <- <-.
  inversion S' as [? ? E|? ? ? ? E S'']; subst; vm_compute in E; discriminate.
Qed.
Print Assumptions index_published_after_enospc_refuted.

Example c12_case :
  let h := [WSetMin 16; WSetAvg 64; WSetMax 256; WChunk (sample_id 1) 100; WInstall; WChunk (sample_id 1) 300; WChunk (sample_id 2) 70; WEof; WInstall; WChunk (sample_id 2) 70] in
  let (tr, s) := wrun h (index_new CA_INDEX_WRITE (Some [1]) 1000) in
  map snd tr = [Ok []; Ok []; Ok []; Ok []; Err EBUSY; Err EINVAL; Ok []; Ok []; Ok []; Err EBUSY] /\
  x_final s = Some (index_image 0 16 64 256 [(sample_id 1, 100); (sample_id 2, 70)]).
Proof. vm_compute. split; reflexivity. Qed.

(** A reader that has opened an index and was used in whatever way since. *)
Definition reader_of (f mi av ma : N) (l : list (list N * N)) (s : idx) : Prop := attached f mi av ma l s.

(** C13. If every chunk but the last has at least the minimal size the index itself declares, seeking to
    any offset inside the blob, from whatever position, succeeds and goes to the chunk that contains
    it: reading on gives that chunk, with the right end and size, and all the following ones.
    Seeking beyond the end reports ENXIO. *)
Theorem index_seek_correct_partial :
  forall f mi av ma l s offset,
  params_ok f mi av ma -> chunks_ok ma l -> len l < 2 ^ 34 ->
  (forall pre id sz post, l = pre ++ (id, sz) :: post -> post <> [] -> mi <= sz) ->
  reader_of f mi av ma l s ->
  exists r s', index_seek offset s = (r, s') /\ reader_of f mi av ma l s' /\
    if offset <? blob_size_of l
    then exists pre id sz post, l = pre ++ (id, sz) :: post /\
           blob_size_of pre <= offset < blob_size_of pre + sz /\ r = Ok (offset - blob_size_of pre) /\
           scans s' (entries_of (blob_size_of pre) ((id, sz) :: post))
    else r = Err ENXIO.
Proof.
  intros f mi av ma l s offset P C Sm Hmin A. destruct (seek_ok f mi av ma l C Sm s offset A Hmin) as (r & s' & S & A' & X).
  exists r, s'. split; [exact S|]. split; [exact A'|]. destruct (offset <? blob_size_of l); [|exact X].
  destruct X as (skip & -> & Hat). destruct (at_chunk_scans f mi av ma l C Sm offset skip s' Hat) as (pre & id & sz & post & E & H & -> & Sc).
  exists pre, id, sz, post. auto.
Qed.
Print Assumptions index_seek_correct_partial.

(** C13 without that condition does not hold: chunks below the minimum are accepted by writer and reader,
    but seeking then goes to the wrong chunk. *)
Theorem index_seek_refuted :
  exists f mi av ma l s offset r s',
  params_ok f mi av ma /\ chunks_ok ma l /\ reader_of f mi av ma l s /\ offset < blob_size_of l /\
  index_seek offset s = (r, s') /\
  ~ (exists pre id sz post, l = pre ++ (id, sz) :: post /\ blob_size_of pre <= offset < blob_size_of pre + sz /\ r = Ok (offset - blob_size_of pre)).
Proof.
  set (l := [(sample_id 1, 5); (sample_id 2, 70)]).
  exists 0, 16, 64, 256, l, (opened 0 16 64 256 (index_image 0 16 64 256 l) 1000), 10. eexists. eexists.
  split; [vm_compute; repeat split; discriminate|]. split; [split; [repeat (constructor; try (vm_compute; repeat split; (reflexivity || discriminate)))|vm_compute; reflexivity]|].
  split; [apply opened_attached|]. split; [vm_compute; reflexivity|]. split; [vm_compute; reflexivity|].
  intros (pre & id & sz & post & E & H & R). injection R as R.
  destruct pre as [|[i0 z0] pre]; cbn in E; injection E as E1 E2 E3.
  - subst. cbn in H. lia.
  - subst. cbn in R. lia.
Qed.
Print Assumptions index_seek_refuted.

Example c13_case :
  reader_of 0 16 64 256 sample_chunks (opened 0 16 64 256 (index_image 0 16 64 256 sample_chunks) 1000) /\
  (forall pre id sz post, sample_chunks = pre ++ (id, sz) :: post -> post <> [] -> 16 <= sz) /\
  fst (index_seek 200 (opened 0 16 64 256 (index_image 0 16 64 256 sample_chunks) 1000)) = Ok 30.
Proof.
  split; [apply opened_attached|]. split; [|vm_compute; reflexivity].
  intros pre id sz post E Hp. unfold sample_chunks in E.
  destruct pre as [|? [|? [|? [|? pre]]]]; cbn in E; injection E; intros; subst; try lia; try congruence. destruct pre; discriminate.
Qed.

(** C43. The sender: what was handed out for transfer so far is always a prefix of the final index, and
    when the sender reports the end, it was all of it. *)
Theorem index_transfer_sender :
  forall fin lim h tr s, Forall wop_ok h ->
  wrun h (index_new CA_INDEX_INCREMENTAL_WRITE fin lim) = (tr, s) -> ~ out_of_space tr -> trace_eof tr = true ->
  exists f mi av ma rest, params_ok f mi av ma /\ index_image f mi av ma (trace_chunks tr) = trace_pulled tr ++ rest /\
    (fst (wstep WPull s) = Ok [] <-> rest = []) /\ exists d, fst (wstep WPull s) = Ok d.
Proof.
  intros fin lim h tr s Ho R Hn He.
  destruct (wrun_winv fin h _ _ tr s Ho (winv_new CA_INDEX_INCREMENTAL_WRITE fin lim eq_refl) R Hn) as (g' & W & C & E & I & O & _). cbn [g_chunks g_eof g_inst g_out app orb] in *.
  rewrite He in E. destruct (g_hdr g') as [[[[f mi] av] ma]|] eqn:H; [|exfalso; exact (v_eof_hdr _ _ _ W E H)].
  destruct (v_out _ _ _ W) as [rest X]. exists f, mi, av, ma, rest. split; [apply (v_hdr _ _ _ W), H|].
  assert (Im : img g' = index_image f mi av ma (trace_chunks tr)) by (unfold img; rewrite H, E, C, image_split; reflexivity).
  split; [rewrite <- Im, X, O; reflexivity|].
  assert (Md : is_mode_iwrite (x_mode s) = true).
  { assert (K : forall o s0, x_mode (snd (wstep o s0)) = x_mode s0).
    { clear. assert (BM : forall A B (m : op A) (k : A -> op B), (forall s, x_mode (snd (m s)) = x_mode s) -> (forall a s, x_mode (snd (k a s)) = x_mode s) -> forall s, x_mode (snd (bindM m k s)) = x_mode s).
      { intros A B m k H1 H2 s. unfold bindM. specialize (H1 s). destruct (m s) as [[a| | |] s1]; cbn [snd] in *; rewrite <- H1; auto. }
      assert (BG : forall c e s, x_mode (snd ((if c : bool then ret tt else fail e) s)) = x_mode s) by (intros [] e s; reflexivity).
      assert (BO : forall s, x_mode (snd (index_open s)) = x_mode s).
      { apply BM; [|intros _; apply BM; [|intros _]].
        - intros s. unfold index_open_fd. rewrite bind_get. destruct (x_open s); [reflexivity|]. destruct (is_mode_read (x_mode s)).
          + destruct (x_final s); [|reflexivity]. destruct s; reflexivity.
          + destruct s; reflexivity.
        - intros s. enough (X : x_mode (snd (index_read_head s)) = x_mode s) by (destruct (index_read_head s) as [[|[]| |] s']; exact X).
          unfold index_read_head. rewrite bind_get. destruct (negb (is_read_mode (x_mode s))); [reflexivity|]. destruct (negb (x_start s =? 0)); [reflexivity|].
          destruct (negb (x_cooked s =? 0)); [reflexivity|]. revert s. apply BM; [|intros r].
          + intros s. unfold index_enough_data. rewrite bind_get. repeat match goal with |- context [if ?c then _ else _] => destruct c end; reflexivity.
          + destruct r; cbn [negb]; [|reflexivity]. apply BM; [intros s; destruct s; reflexivity|intros hh].
            apply BM; [apply BG|intros _]. apply BM; [apply BG|intros _].
            destruct (feature_flags_are_normalized _) as [[|]| | |]; try reflexivity.
            do 5 (apply BM; [apply BG|intros _]). intros s; destruct s; reflexivity.
        - intros s. unfold index_write_head. rewrite bind_get. destruct (negb (is_write_mode (x_mode s))); [reflexivity|]. destruct (negb (x_start s =? 0)); [reflexivity|].
          rewrite !bind_guard. destruct (negb (x_flags s =? UINT64_MAX)); [|reflexivity].
          destruct (negb ((x_min s =? 0) || (x_avg s =? 0) || (x_max s =? 0))); [|reflexivity]. destruct ((x_min s <=? x_avg s) && (x_avg s <=? x_max s)); [|reflexivity].
          destruct (negb (x_cooked s =? 0)); [reflexivity|]. unfold bindM, loop_write. destruct s; cbn. destruct (_ <=? _); reflexivity. }
      assert (BW : forall d s, x_mode (snd (loop_write d s)) = x_mode s) by (intros d s; unfold loop_write; destruct (_ <=? _); destruct s; reflexivity).
      assert (BGet : forall s, x_mode (snd (getS s)) = x_mode s) by reflexivity.
      assert (BS : forall w v s, x_mode (snd (index_set_chunk_size w v s)) = x_mode s).
      { intros w v. unfold index_set_chunk_size. apply BM; [exact BGet|intros s0]. do 3 (apply BM; [apply BG|intros []]).
        intros x. destruct x; destruct w as [|[| |]]; reflexivity. }
      intros o s0. revert s0. destruct o as [fl|v|v|v|id sz| | | |n]; cbn [wstep]; unfold discard; apply BM; try (intros; reflexivity).
      - unfold index_set_feature_flags. apply BM; [exact BGet|intros s0]. do 2 (apply BM; [apply BG|intros []]).
        intros y. destruct (feature_flags_normalize fl); try reflexivity. destruct y; reflexivity.
      - apply BS. - apply BS. - apply BS.
      - unfold index_write_chunk. apply BM; [exact BGet|intros s0]. do 3 (apply BM; [apply BG|intros []]).
        apply BM; [exact BO|intros []]. apply BM; [exact BGet|intros s1]. do 2 (apply BM; [apply BG|intros []]).
        apply BM; [apply BW|intros []]. intros y; destruct y; reflexivity.
      - unfold index_write_eof. apply BM; [exact BGet|intros s0]. do 2 (apply BM; [apply BG|intros []]).
        apply BM; [exact BO|intros []]. apply BM; [exact BGet|intros s1].
        apply BM; [apply BW|intros []]. intros y; destruct y; reflexivity.
      - unfold index_install. apply BM; [exact BGet|intros s0]. do 2 (apply BM; [apply BG|intros []]).
        destruct (negb (x_temp s0)); [reflexivity|]. apply BM; [intros y; destruct y; reflexivity|reflexivity].
      - unfold index_incremental_read. apply BM; [exact BGet|intros s0]. apply BM; [apply BG|intros []].
        apply BM; [exact BO|intros []]. apply BM; [exact BGet|intros s1].
        destruct (x_cooked s1 <=? x_raw s1); [destruct (x_eof s1); reflexivity|]. intros y; destruct y; reflexivity.
      - intros x; destruct x; reflexivity. }
    assert (KK : forall h s0 tr0 s1, wrun h s0 = (tr0, s1) -> x_mode s1 = x_mode s0).
    { clear -K. induction h as [|o h IH]; intros s0 tr0 s1 Hr; cbn [wrun] in Hr; [congruence|].
      specialize (K o s0). destruct (wstep o s0) as [r s2]. destruct (wrun h s2) as [tr1 s3] eqn:R1. inversion Hr; subst. rewrite (IH _ _ _ R1). exact K. }
    rewrite (KK _ _ _ _ R). reflexivity. }
  cbn [wstep]. unfold index_incremental_read.
  assert (XX : forall A B D (m : op A) (h : A -> op B) (k : B -> op D) s, bindM (bindM m h) k s = bindM m (fun a => bindM (h a) k) s).
  { intros. unfold bindM. destruct (m s0) as [[| | |] ?]; reflexivity. }
  rewrite XX, bind_get, XX, bind_guard, Md, XX.
  assert (Op : index_open s = (Ok tt, s)).
  { apply open_noop; [apply (v_open _ _ _ W); congruence|rewrite (v_start _ _ _ W), H; discriminate]. }
  rewrite (bind_ok _ _ _ _ _ Op), XX, bind_get, (v_eof _ _ _ W), E.
  pose proof (v_cooked _ _ _ W) as Ck. pose proof (v_raw _ _ _ W) as Rw. pose proof (v_data _ _ _ W) as Da. rewrite Ck, Rw, Da, X, len_app.
  destruct (N.leb_spec (len (g_out g') + len rest) (len (g_out g'))) as [L|L].
  - assert (rest = []) by (apply len_zero_nil; lia). subst rest. rewrite bind_ret. unfold ret. cbn [fst]. split; [split; reflexivity|eauto].
  - rewrite XX, bind_mod, bind_ret. unfold ret. cbn [fst]. split; [|eauto].
    assert (Nz : len rest <> 0) by lia. split; [|intros ->; exfalso; apply Nz; reflexivity].
    intros Q. injection Q as Q. apply (f_equal (@len N)) in Q. unfold file_pread in Q. rewrite dropN_app_exact, len_takeN in Q by reflexivity. unfold BUFFER_SIZE in Q. change (len []) with 0 in Q. lia.
Qed.
Print Assumptions index_transfer_sender.

(** C43. The receiver: the pieces of an index are pushed in whatever sizes, reads are attempted at whatever
    times but not while between 41 and 63 bytes have arrived.  Then no call fails but with EAGAIN,
    what is read are the entries of the index in order, and once the end was announced every further
    read gives the next entry, or the end when all were read. *)
Theorem index_transfer_receiver_partial :
  forall f mi av ma l fin lim h tr s rest,
  params_ok f mi av ma -> chunks_ok ma l -> len l < 2 ^ 34 -> 104 + 40 * len l <= lim ->
  irun h (index_new CA_INDEX_INCREMENTAL_READ fin lim) = (tr, s) ->
  Forall (fun o => o <> IPush []) h -> index_image f mi av ma l = pushes h ++ rest ->
  eof_last h -> (In IEof h -> rest = []) -> no_early_read 0 h -> ~ In (IRead, Ok None) tr ->
  Forall (fun x => (exists v, snd x = Ok v) \/ x = (IRead, Err EAGAIN)) tr /\
  exists later, entries_of 0 l = itrace_read tr ++ later /\ (In IEof h -> fst (istep IRead s) = Ok (hd_error later)).
Proof. intros f mi av ma l fin lim h tr s rest P C Sm. apply receive_ok; assumption. Qed.
Print Assumptions index_transfer_receiver_partial.

(** C43 without the restriction on when to read does not hold: 50 bytes of a valid index make the reader
    take its head for a table entry and refuse it, and it does not recover when the rest arrives. *)
Theorem index_transfer_receiver_refuted :
  exists l h tr s, params_ok 0 16 64 256 /\ chunks_ok 256 l /\ index_image 0 16 64 256 l = pushes h /\ eof_last h /\
  irun h (index_new CA_INDEX_INCREMENTAL_READ None 1000) = (tr, s) /\
  In (IRead, Err EBADMSG) tr /\ itrace_read tr <> entries_of 0 l /\ fst (istep IRead s) = Err EBADMSG.
Proof.
  set (im := index_image 0 16 64 256 sample_chunks).
  exists sample_chunks, [IPush (takeN 50 im); IRead; IPush (dropN 50 im); IEof]. eexists. eexists.
  split; [vm_compute; repeat split; discriminate|]. split; [split; [repeat (constructor; try (vm_compute; repeat split; (reflexivity || discriminate)))|vm_compute; reflexivity]|].
  split; [vm_compute; reflexivity|]. split; [repeat constructor|]. split; [vm_compute; reflexivity|]. split; [right; left; reflexivity|]. split; [discriminate|]. vm_compute. reflexivity.
Qed.
Print Assumptions index_transfer_receiver_refuted.

Example c43_case :
  let im := index_image 0 16 64 256 sample_chunks in
  let h := [IRead; IPush (takeN 40 im); IRead; IPush (takeN 70 (dropN 40 im)); IRead; IRead; IPush (dropN 110 im); IEof; IRead; IRead] in
  no_early_read 0 h /\ eof_last h /\ im = pushes h ++ [] /\
  map snd (fst (irun h (index_new CA_INDEX_INCREMENTAL_READ None 1000))) =
    [Err EAGAIN; Ok None; Err EAGAIN; Ok None; Ok (Some (sample_id 1, 100, 100)); Err EAGAIN; Ok None; Ok None; Ok (Some (sample_id 2, 170, 70)); Ok (Some (sample_id 1, 270, 100))].
Proof. vm_compute. repeat split; auto; try (right; discriminate); try (left; reflexivity); repeat constructor. Qed.

(** Further deviations.  An index stays writable in its size parameters after its head was written, so that
    an installed index can hold a chunk beyond the maximum in its head, which its reader refuses. *)
Theorem index_late_size_change_refuted :
  exists h tr s image, Forall wop_ok h /\ wrun h (index_new CA_INDEX_WRITE None 1000) = (tr, s) /\
  Forall (fun x => exists d, snd x = Ok d) tr /\ x_final s = Some image /\ forall es, ~ scans (index_new CA_INDEX_READ (Some image) 1000) es.
Proof.
  exists [WSetMin 16; WSetAvg 64; WSetMax 256; WChunk (sample_id 1) 100; WSetMax 1000; WChunk (sample_id 2) 700; WEof; WInstall].
  eexists. eexists. eexists. split; [repeat (constructor; try (vm_compute; repeat split; (reflexivity || discriminate)))|]. split; [vm_compute; reflexivity|].
  split; [repeat constructor; eexists; reflexivity|]. split; [reflexivity|].
  intros es S. inversion S as [? ? E|? ? ? ? E S']; subst; vm_compute in E; [discriminate|]. injection E as <- <-.
  inversion S' as [? ? E|? ? ? ? E S'']; subst; vm_compute in E; discriminate.
Qed.
Print Assumptions index_late_size_change_refuted.
