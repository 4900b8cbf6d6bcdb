(** Loading: the loops that read chunk files, in runs without I/O faults. *)
From Verif Require Import Base ChunkId ChunkIdProofs Posix PosixProofs ChunkFile Store StoreSpec StoreProofs1.
Local Open Scope N_scope.
Local Opaque BUFFER_SIZE CHUNK_LIMIT_MAX CHUNK_LIMIT_MIN.

Lemma compress_loop_ok (bound : N -> N) (t : ctype) (cd : codec)
  (mono : forall a b, a <= b -> bound a <= bound b) fuel : forall s d o fin inp buf,
  encodes bound t cd s d o fin -> (forall l, fin = Some l -> inp = l) ->
  bound (len (d ++ inp)) < CHUNK_LIMIT_MAX ->
  len inp + (bound (len (d ++ inp)) - len o) < N.of_nat fuel ->
  exists z, compress_loop cd fuel s inp buf (len o) = Some (Ok (buf ++ z)) /\
            packed cd (o ++ z) (d ++ inp) /\ detect_compression (o ++ z) = Ok t /\ len (o ++ z) < CHUNK_LIMIT_MAX.
Proof.
  induction fuel as [|fuel IH]; intros s d o fin inp buf HE Hfin HB Hf; [lia|].
  destruct (compressor_encode_ok bound t cd s d o fin true inp HE) as (s' & out & r & inp' & E & Hr);
    [discriminate|intros l Hl; split; [reflexivity|exact (Hfin l Hl)]|].
  cbn [compress_loop]. rewrite E. cbv beta iota zeta.
  assert (len o + len out = len (o ++ out)) as El by (rewrite len_app; reflexivity).
  assert (len (o ++ out) <= bound (len (d ++ inp)) /\ (r = CEof -> packed cd (o ++ out) (d ++ inp) /\ detect_compression (o ++ out) = Ok t)
    /\ (r <> CEof -> exists d', d' ++ inp' = d ++ inp /\ encodes bound t cd s' d' (o ++ out) (Some inp')
         /\ len inp' <= len inp /\ (len inp' < len inp \/ out <> []))) as (Hb & He & Hn).
  { assert (forall X, (exists d', d' ++ inp' = d ++ inp /\
            encodes bound t cd s' d' (o ++ out) (Some inp') /\ X /\
            len inp' <= len inp /\ (len inp' < len inp \/ out <> []) /\ len (o ++ out) <= bound (len d')) ->
       len (o ++ out) <= bound (len (d ++ inp)) /\ (exists d', d' ++ inp' = d ++ inp /\ encodes bound t cd s' d' (o ++ out) (Some inp')
         /\ len inp' <= len inp /\ (len inp' < len inp \/ out <> []))) as HX.
    { intros X (d' & A1 & A2 & _ & A3 & A4 & A5). split; [|exists d'; auto]. etransitivity; [exact A5|]. apply mono. rewrite <- A1, len_app. lia. }
    destruct r.
    - destruct Hr as (_ & A1 & A2 & A3). split; [exact A3|]. split; [auto|]. congruence.
    - apply HX in Hr. destruct Hr as [Hr1 Hr2]. split; [exact Hr1|]. split; [discriminate|auto].
    - apply HX in Hr. destruct Hr as [Hr1 Hr2]. split; [exact Hr1|]. split; [discriminate|auto]. }
  rewrite El. replace (CHUNK_LIMIT_MAX <=? len (o ++ out)) with false by lia.
  assert (r = CEof \/ r <> CEof) as [->|Hne] by (destruct r; [left; reflexivity|right; discriminate|right; discriminate]).
  - destruct (He eq_refl) as [He1 He2]. pose proof (packed_pos _ _ _ He1).
    replace (len (o ++ out) <? CHUNK_LIMIT_MIN) with false by lia. exists out. split; [reflexivity|]. split; [exact He1|]. split; [exact He2|lia].
  - destruct (Hn Hne) as (d' & A1 & A2 & A3 & A4).
    destruct (IH s' d' (o ++ out) (Some inp') inp' (buf ++ out) A2) as (z & B1 & B2 & B3 & B4).
    + intros l Hl. congruence.
    + rewrite A1. exact HB.
    + rewrite A1. pose proof (len_app o out). destruct A4 as [A4|A4]; [lia|]. apply len_pos in A4. lia.
    + exists (out ++ z). rewrite !app_assoc. split; [destruct r; [congruence|exact B1|exact B1]|]. rewrite <- A1. auto.
Qed.

(** Partial: whatever ca_compress returns holds the data. *)
Lemma compress_loop_sound (bound : N -> N) (t : ctype) (cd : codec) fuel : forall s d o fin inp buf cc b,
  encodes bound t cd s d o fin -> (forall l, fin = Some l -> inp = l) ->
  compress_loop cd fuel s inp buf cc = Some (Ok b) ->
  exists z, b = buf ++ z /\ packed cd (o ++ z) (d ++ inp) /\ detect_compression (o ++ z) = Ok t.
Proof.
  induction fuel as [|fuel IH]; intros s d o fin inp buf cc b HE Hfin H; [discriminate|].
  destruct (compressor_encode_ok bound t cd s d o fin true inp HE) as (s' & out & r & inp' & E & Hr);
    [discriminate|intros l Hl; split; [reflexivity|exact (Hfin l Hl)]|].
  cbn [compress_loop] in H. rewrite E in H. cbv beta iota zeta in H.
  destruct (CHUNK_LIMIT_MAX <=? cc + len out); [discriminate|].
  assert (r = CEof \/ (compress_loop cd fuel s' inp' (buf ++ out) (cc + len out) = Some (Ok b) /\
          exists d', d' ++ inp' = d ++ inp /\ encodes bound t cd s' d' (o ++ out) (Some inp'))) as [->|[H' (d' & A1 & A2)]].
  { destruct r; [left; reflexivity| |]; right; (split; [exact H|]); destruct Hr as (d' & A1 & A2 & _); exists d'; auto. }
  - destruct Hr as (_ & A1 & A2 & _). destruct (_ <? _); [discriminate|]. exists out. split; [congruence|]. auto.
  - destruct (IH s' d' (o ++ out) (Some inp') inp' (buf ++ out) (cc + len out) b A2) as (z & B1 & B2 & B3).
    + intros l Hl. congruence.
    + exact H'.
    + exists (out ++ z). rewrite B1, app_assoc_reverse. split; [reflexivity|]. rewrite app_assoc, <- A1. auto.
Qed.

Lemma encode_input_ok (bound : N -> N) (t : ctype) (cd : codec)
  (mono : forall a b, a <= b -> bound a <= bound b) fuel : forall s d o fin (finish : bool) inp buf,
  encodes bound t cd s d o fin -> (finish = false -> inp <> []) -> (forall l, fin = Some l -> finish = true /\ inp = l) ->
  bound (len (d ++ inp)) < CHUNK_LIMIT_MAX ->
  len inp + (bound (len (d ++ inp)) - len o) < N.of_nat fuel ->
  exists s' out eof,
    encode_input cd fuel s finish inp buf (len o) = Some (Ok (s', buf ++ out, len (o ++ out), eof)) /\
    (len (o ++ out) <= bound (len (d ++ inp))) /\
    (if eof : bool then finish = true /\ packed cd (o ++ out) (d ++ inp) /\ detect_compression (o ++ out) = Ok t
     else encodes bound t cd s' (d ++ inp) (o ++ out) (if finish then Some [] else None) /\ (inp = [] -> out <> [])).
Proof.
  induction fuel as [|fuel IH]; intros s d o fin finish inp buf HE Hne Hfin HB Hf; [lia|].
  destruct (compressor_encode_ok bound t cd s d o fin finish inp HE Hne Hfin) as (s' & out & r & inp' & E & Hr).
  cbn [encode_input]. rewrite E. cbv beta iota zeta.
  assert (len o + len out = len (o ++ out)) as El by (rewrite len_app; reflexivity). rewrite El.
  destruct r.
  - destruct Hr as (-> & A1 & A2 & A3). replace (CHUNK_LIMIT_MAX <=? len (o ++ out)) with false by lia.
    exists s', out, true. auto.
  - destruct Hr as (d' & A1 & A2 & A3 & A4 & A5 & A6).
    assert (len (o ++ out) <= bound (len (d ++ inp))) as A7. { etransitivity; [exact A6|]. apply mono. rewrite <- A1, len_app. lia. }
    replace (CHUNK_LIMIT_MAX <=? len (o ++ out)) with false by lia.
    assert (inp' <> []) as Hi by (apply A3; reflexivity).
    destruct (IH s' d' (o ++ out) (if finish then Some inp' else None) finish inp' (buf ++ out) A2) as (s2 & o2 & eof & B1 & B2 & B3).
    + auto.
    + intros l Hl. destruct finish; [split; [reflexivity|congruence]|discriminate].
    + rewrite A1. exact HB.
    + rewrite A1. pose proof (len_app o out). destruct A5 as [A5|A5]; [lia|]. apply len_pos in A5. lia.
    + exists s2, (out ++ o2), eof. rewrite !app_assoc. rewrite A1 in B2, B3. split; [exact B1|]. split; [exact B2|].
      destruct eof; [exact B3|]. destruct B3 as [B3 B4]. split; [exact B3|]. intros ->. destruct inp'; [congruence|].
      rewrite len_cons in A4. change (@len N []) with 0 in A4. lia.
  - destruct Hr as (d' & A1 & A2 & A3 & A4 & A5 & A6).
    assert (len (o ++ out) <= bound (len (d ++ inp))) as A7. { etransitivity; [exact A6|]. apply mono. rewrite <- A1, len_app. lia. }
    replace (CHUNK_LIMIT_MAX <=? len (o ++ out)) with false by lia.
    assert (inp' = []) as ->. { destruct inp'; [reflexivity|]. exfalso. assert (CGood = CMore) by (apply A3; discriminate). discriminate. }
    rewrite app_nil_r in A1. subst d'. exists s', out, false. split; [reflexivity|]. split; [exact A7|]. split; [exact A2|].
    intros ->. destruct A5 as [A5|A5]; [|exact A5]. change (@len N []) with 0 in A5. lia.
Qed.

(** ** Reading files *)

(** Same files; only positions of open files may differ. *)
Definition same_files (w w' : world) : Prop := w_names w' = w_names w /\ w_inodes w' = w_inodes w.

Lemma same_files_refl w : same_files w w. Proof. split; reflexivity. Qed.
Lemma same_files_trans a b c : same_files a b -> same_files b c -> same_files a c.
Proof. intros [H1 H2] [H3 H4]. split; congruence. Qed.

Lemma nth_replace {A} (l : list A) i x : (i < length l)%nat -> nth_error (replace_nth l i x) i = Some x.
Proof. revert i. induction l as [|y l IH]; intros [|i] H; cbn in *; [lia|lia|reflexivity|apply IH; lia]. Qed.

Lemma nth_replace_other {A} (l : list A) i j x : i <> j -> nth_error (replace_nth l i x) j = nth_error l j.
Proof. revert i j. induction l as [|y l IH]; intros [|i] [|j] H; cbn; try congruence; try reflexivity. apply IH. congruence. Qed.

Lemma replace_replace {A} (l : list A) i x y : replace_nth (replace_nth l i x) i y = replace_nth l i y.
Proof. revert i. induction l as [|z l IH]; intros [|i]; cbn; try reflexivity. rewrite IH. reflexivity. Qed.

Lemma replace_same {A} (l : list A) i x : nth_error l i = Some x -> replace_nth l i x = l.
Proof. revert i. induction l as [|z l IH]; intros [|i] H; cbn in *; try congruence. rewrite IH by exact H. reflexivity. Qed.

Lemma length_replace {A} (l : list A) i x : length (replace_nth l i x) = length l.
Proof. revert i. induction l as [|z l IH]; intros [|i]; cbn; try reflexivity. rewrite IH. reflexivity. Qed.

(** The descriptor [fd] is open on a file and has [rest] before it. *)
Definition reading (w : world) (fd : nat) (rest : list N) : Prop :=
  exists i pos c, nth_error (w_fds w) fd = Some (i, pos) /\ nth_error (w_inodes w) i = Some c /\ pos <= len c /\ rest = dropN pos c.

Lemma ends_read {A} fd n (k : list N -> prog (res A)) w rest Q :
  reading w fd rest ->
  (forall w', same_files w w' -> reading w' fd (dropN n rest) -> ends false w' (k (takeN n rest)) Q) ->
  ends false w (try b <- sys_read fd n ;; k b) Q.
Proof.
  intros (i & pos & c & E1 & E2 & Hp & ->) H. cbn. split.
  - eexists. eexists. eapply s_read; eassumption.
  - intros w' r Hs. destruct (sys_read_inv _ _ _ _ _ _ _ _ _ Hs E1 E2) as [(Hx & _)|[-> ->]]; [discriminate|].
    cbn [pbind]. apply H.
    + split; reflexivity.
    + exists i, (pos + len (takeN n (dropN pos c))), c. cbn. split. { apply nth_replace. apply nth_error_Some. congruence. }
      split; [exact E2|]. rewrite len_takeN, len_dropN. split; [lia|].
      rewrite dropN_dropN. destruct (N.le_gt_cases n (len c - pos)) as [Hle|Hgt].
      * f_equal. lia.
      * rewrite !dropN_all by lia. reflexivity.
Qed.

Lemma takeN_nil_inv n (l : list N) : takeN n l = [] -> 0 < n -> l = [].
Proof. intros H Hn. apply (f_equal len) in H. rewrite len_takeN in H. change (@len N []) with 0 in H. apply len_zero_nil. lia. Qed.

Lemma load_fd_ok fuel : forall w fd rest buf count,
  reading w fd rest -> len rest + 1 < N.of_nat fuel ->
  ends false w (load_fd fuel fd buf count) (fun w' r => same_files w w' /\
    r = if (count + len rest <? CHUNK_LIMIT_MIN) || (CHUNK_LIMIT_MAX <=? count + len rest)
        then Err EBADMSG else Ok (buf ++ rest)).
Proof.
  induction fuel as [|fuel IH]; intros w fd rest buf count HR Hf; [lia|]. cbn [load_fd].
  destruct (CHUNK_LIMIT_MAX <=? count) eqn:Em.
  - cbn. split; [apply same_files_refl|]. replace (CHUNK_LIMIT_MAX <=? count + len rest) with true by lia.
    rewrite orb_true_r. reflexivity.
  - eapply ends_read; [exact HR|]. intros w' Hsm HR'. pose proof buffer_pos as Hbp.
    destruct (takeN BUFFER_SIZE rest) as [|x b] eqn:Eb.
    + apply takeN_nil_inv in Eb; [|exact Hbp]. subst rest. change (@len N []) with 0. rewrite N.add_0_r, Em, orb_false_r, app_nil_r.
      destruct (count <? CHUNK_LIMIT_MIN); cbn; auto.
    + rewrite <- Eb. assert (0 < len (takeN BUFFER_SIZE rest)) as Hl by (rewrite Eb, len_cons; lia).
      rewrite len_takeN in Hl. eapply ends_mono; [|apply IH; [exact HR'|rewrite len_dropN; lia]].
      cbv beta. intros w2 r [H1 ->]. split; [eapply same_files_trans; eauto|].
      rewrite <- app_assoc, takeN_dropN, <- N.add_assoc, <- len_app, takeN_dropN. reflexivity.
Qed.

Lemma detect_prefix z n : 6 <= n -> detect_compression (takeN n z) = detect_compression z.
Proof.
  intros Hn. unfold detect_compression, starts_with.
  assert (forall k sig, k <= 6 -> (k <=? len (takeN n z)) && beq (takeN k (takeN n z)) sig = (k <=? len z) && beq (takeN k z) sig) as H.
  { intros k sig Hk. rewrite len_takeN, takeN_takeN. rewrite (N.min_l k n) by lia. f_equal. destruct (N.leb_spec k (len z)); lia. }
  change (len xz_signature) with 6. change (len gzip_signature) with 2. change (len zstd_signature) with 4.
  rewrite !H by lia. replace (len (takeN n z) <? 6) with (len z <? 6) by (rewrite len_takeN; lia). reflexivity.
Qed.

Lemma buffer_ge : 6 <= BUFFER_SIZE. Proof. intro H; discriminate. Qed.

Lemma load_detect_ok fuel w fd z t :
  reading w fd z -> z <> [] -> detect_compression z = Ok t -> (0 < fuel)%nat ->
  ends false w (load_detect fuel fd []) (fun w' r => same_files w w' /\ reading w' fd (dropN BUFFER_SIZE z) /\
    r = Ok (takeN BUFFER_SIZE z, t)).
Proof.
  intros HR Hz Hd Hf. destruct fuel as [|fuel]; [lia|]. cbn [load_detect].
  change (len []) with 0. pose proof buffer_pos. replace (BUFFER_SIZE <=? 0) with false by lia.
  rewrite N.sub_0_r. eapply ends_read; [exact HR|]. intros w' Hsm HR'. rewrite app_nil_l.
  destruct (takeN BUFFER_SIZE z) as [|x b] eqn:Eb. { apply takeN_nil_inv in Eb; [congruence|lia]. }
  rewrite <- Eb, detect_prefix, Hd by apply buffer_ge. cbn. auto.
Qed.

Lemma decompress_fd_loop_ok cd fuel : forall w fd s inp rest p buf cc dc,
  reading w fd rest -> decodes cd s (inp ++ rest) p -> inp <> [] ->
  len inp + len rest + len p + 2 < N.of_nat fuel ->
  dc + len p < CHUNK_LIMIT_MAX -> CHUNK_LIMIT_MIN <= dc + len p ->
  CHUNK_LIMIT_MIN <= cc -> cc + len rest < CHUNK_LIMIT_MAX ->
  ends false w (decompress_fd_loop cd fuel fd s inp buf cc dc) (fun w' r => same_files w w' /\ r = Ok (buf ++ p)).
Proof.
  induction fuel as [|fuel IH]; intros w fd s inp rest p buf cc dc HR HD Hi Hf Hm1 Hm2 Hc1 Hc2; [lia|].
  cbn [decompress_fd_loop].
  destruct (decode_input_ok cd (S fuel) s (inp ++ rest) p inp rest buf dc HD eq_refl Hi) as (s' & out & p' & eof & E & Ep & He); [lia|lia|].
  rewrite E. cbn [plift ptry pbind]. eapply ends_read; [exact HR|]. intros w' Hsm HR'. pose proof buffer_pos.
  destruct eof.
  - destruct He as [-> ->]. rewrite app_nil_r in Ep. subst out. unfold takeN at 1. rewrite firstn_nil. cbn [negb].
    replace (cc <? CHUNK_LIMIT_MIN) with false by lia. replace (dc + len p <? CHUNK_LIMIT_MIN) with false by lia. cbn. auto.
  - destruct (decodes_step _ _ _ _ He) as [Hrest _].
    destruct (takeN BUFFER_SIZE rest) as [|x b] eqn:Eb. { apply takeN_nil_inv in Eb; [congruence|lia]. }
    rewrite <- Eb. assert (len (takeN BUFFER_SIZE rest) <= len rest) as Hle by (rewrite len_takeN; lia).
    replace (CHUNK_LIMIT_MAX <=? cc + len (takeN BUFFER_SIZE rest)) with false by lia.
    subst p. rewrite len_app in *.
    eapply ends_mono; [|apply (IH w' fd s' (takeN BUFFER_SIZE rest) (dropN BUFFER_SIZE rest) p' (buf ++ out)); [exact HR'| | | | | | |]].
    + cbv beta. intros w2 r [H1 ->]. split; [eapply same_files_trans; eauto|]. rewrite app_assoc. reflexivity.
    + rewrite takeN_dropN. exact He.
    + rewrite Eb. discriminate.
    + rewrite <- len_app, takeN_dropN. apply len_pos in Hi. lia.
    + lia.
    + lia.
    + lia.
    + rewrite <- N.add_assoc, <- len_app, takeN_dropN. exact Hc2.
Qed.

Lemma load_and_decompress_ok codecs fuel w fd z p t cd :
  reading w fd z -> detect_compression z = Ok t -> codecs t = Some cd -> packed cd z p ->
  CHUNK_LIMIT_MIN <= len p < CHUNK_LIMIT_MAX -> len z < CHUNK_LIMIT_MAX ->
  len z + len p + 2 < N.of_nat fuel ->
  ends false w (load_and_decompress_fd codecs fuel fd []) (fun w' r => same_files w w' /\ r = Ok p).
Proof.
  intros HR Hd Hc HD Hp Hz Hf. destruct (decodes_step _ _ _ _ HD) as [Hne _].
  unfold load_and_decompress_fd. apply ends_bind.
  eapply ends_mono; [|apply (load_detect_ok fuel w fd z t HR Hne Hd); lia].
  cbv beta. intros w1 r (Hsm & HR1 & ->). cbn [start_codec]. rewrite Hc.
  eapply ends_mono; [|apply (decompress_fd_loop_ok cd fuel w1 fd (dec_new cd) (takeN BUFFER_SIZE z) (dropN BUFFER_SIZE z) p [])].
  - cbv beta. intros w2 r [H1 ->]. split; [eapply same_files_trans; eauto|reflexivity].
  - exact HR1.
  - rewrite takeN_dropN. exact HD.
  - intros E. apply takeN_nil_inv in E; [congruence|apply buffer_pos].
  - rewrite <- len_app, takeN_dropN. lia.
  - lia.
  - lia.
  - rewrite len_takeN. pose proof buffer_pos. apply len_pos in Hne. change CHUNK_LIMIT_MIN with 1. lia.
  - rewrite <- len_app, takeN_dropN. exact Hz.
Qed.

Lemma compress_fd_loop_ok (bound : N -> N) (t : ctype) (cd : codec)
  (mono : forall a b, a <= b -> bound a <= bound b) fuel : forall w fd s d o fin rest,
  reading w fd rest -> encodes bound t cd s d o fin -> (forall l, fin = Some l -> l = [] /\ rest = []) ->
  CHUNK_LIMIT_MIN <= len (d ++ rest) < CHUNK_LIMIT_MAX -> bound (len (d ++ rest)) < CHUNK_LIMIT_MAX ->
  len rest + (bound (len (d ++ rest)) - len o) < N.of_nat fuel ->
  ends false w (compress_fd_loop cd fuel fd s o (len o) (len d))
    (fun w' r => same_files w w' /\ exists z, r = Ok z /\ packed cd z (d ++ rest) /\ detect_compression z = Ok t /\ len z < CHUNK_LIMIT_MAX).
Proof.
  induction fuel as [|fuel IH]; intros w fd s d o fin rest HR HE Hfin Hl HB Hf; [lia|].
  cbn [compress_fd_loop]. eapply ends_read; [exact HR|]. intros w' Hsm HR'. pose proof buffer_pos.
  set (b := takeN BUFFER_SIZE rest) in *.
  assert (len (d ++ b) <= len (d ++ rest)) as Hlb by (unfold b; rewrite !len_app, len_takeN; lia).
  assert (len d + len b < CHUNK_LIMIT_MAX) as Hdb by (rewrite <- len_app; lia).
  replace (CHUNK_LIMIT_MAX <=? len d + len b) with false by lia.
  assert (len b <= len rest) as Hbr by (unfold b; rewrite len_takeN; lia).
  assert ((len b <? BUFFER_SIZE) = false -> b <> []) as Hne.
  { intros Hx E. rewrite E in Hx. change (@len N []) with 0 in Hx. lia. }
  assert (bound (len (d ++ b)) <= bound (len (d ++ rest))) as Hmb by (apply mono; exact Hlb).
  destruct (encode_input_ok bound t cd mono (S fuel) s d o fin (len b <? BUFFER_SIZE) b o HE Hne) as (s' & out & eof & E & Ho & He).
  - intros l Hl1. destruct (Hfin l Hl1) as [-> ->]. unfold b, takeN. rewrite firstn_nil. split; [|reflexivity].
    change (@len N []) with 0. lia.
  - lia.
  - lia.
  - rewrite E. cbn [plift ptry pbind].
    assert ((len b <? BUFFER_SIZE) = true -> b = rest /\ dropN BUFFER_SIZE rest = []) as Hlast.
    { intros Hx. assert (len rest <= BUFFER_SIZE) by (unfold b in Hx; rewrite len_takeN in Hx; lia).
      unfold b. rewrite takeN_all, dropN_all by lia. auto. }
    destruct eof.
    + destruct He as (He1 & He2 & He3). destruct (Hlast He1) as [-> _].
      pose proof (packed_pos _ _ _ He2). replace (len (o ++ out) <? CHUNK_LIMIT_MIN) with false by lia.
      rewrite <- len_app. replace (len (d ++ rest) <? CHUNK_LIMIT_MIN) with false by lia. cbn.
      split; [exact Hsm|]. exists (o ++ out). split; [reflexivity|]. split; [exact He2|]. split; [exact He3|lia].
    + destruct He as [He1 He2]. rewrite <- len_app.
      assert (d ++ b ++ dropN BUFFER_SIZE rest = d ++ rest) as Ed by (unfold b; rewrite takeN_dropN; reflexivity).
      eapply ends_mono; [|eapply (IH w' fd s' (d ++ b) (o ++ out) _ (dropN BUFFER_SIZE rest)); [exact HR'|exact He1| | | |]].
      * cbv beta. intros w2 r [H1 (z & -> & H2)]. split; [eapply same_files_trans; eauto|]. exists z.
        rewrite <- app_assoc, Ed in H2. auto.
      * intros l Hl2. destruct (len b <? BUFFER_SIZE); [|discriminate]. destruct (Hlast eq_refl) as [_ ->]. split; [congruence|reflexivity].
      * rewrite <- app_assoc, Ed. exact Hl.
      * rewrite <- app_assoc, Ed. exact HB.
      * rewrite <- app_assoc, Ed, len_dropN. pose proof (len_app o out).
        destruct b as [|x b'] eqn:Eb.
        -- assert (0 < len out) by (apply len_pos; auto). change (@len N []) with 0 in *. lia.
        -- assert (0 < len rest) by (rewrite len_cons in Hbr; lia). lia.
Qed.

Lemma load_and_compress_ok bound codecs fuel w fd p t cd :
  codecs_ok bound codecs -> reading w fd p -> codecs t = Some cd ->
  CHUNK_LIMIT_MIN <= len p < CHUNK_LIMIT_MAX -> bound (len p) < CHUNK_LIMIT_MAX ->
  len p + bound (len p) < N.of_nat fuel ->
  ends false w (load_and_compress_fd codecs fuel fd (Some t) [])
    (fun w' r => same_files w w' /\ exists z, r = Ok z /\ packed cd z p /\ detect_compression z = Ok t /\ len z < CHUNK_LIMIT_MAX).
Proof.
  intros [mono HC] HR Hc Hp HB Hf. unfold load_and_compress_fd, start_codec. rewrite Hc.
  apply (compress_fd_loop_ok bound t cd mono fuel w fd (enc_new cd) [] [] None p HR (codec_ok_encodes _ _ _ (HC t cd Hc)));
    [discriminate|exact Hp|exact HB|]. cbn [app]. change (@len N []) with 0. lia.
Qed.

Lemma decompress_ok codecs fuel z p t cd :
  detect_compression z = Ok t -> codecs t = Some cd -> packed cd z p ->
  CHUNK_LIMIT_MIN <= len p < CHUNK_LIMIT_MAX -> len z <= CHUNK_LIMIT_MAX -> len z + len p < N.of_nat fuel ->
  decompress codecs fuel z [] = Some (Ok p).
Proof.
  intros Hd Hc HD Hp Hz Hf. unfold decompress, bad_size. pose proof (packed_pos _ _ _ HD).
  replace (len z <? CHUNK_LIMIT_MIN) with false by lia. replace (CHUNK_LIMIT_MAX <? len z) with false by lia. cbn [orb].
  unfold detect_all. rewrite Hd. cbn [bind start_codec]. rewrite Hc.
  rewrite (decompress_loop_ok cd fuel _ z p [] 0 HD) by lia. replace (0 + len p <? CHUNK_LIMIT_MIN) with false by lia. reflexivity.
Qed.
