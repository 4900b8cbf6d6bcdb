(** All operations of a store are safe in the sense of StoreProofs7.v; hence any interleaving of clients leaves the store intact. *)
From Verif Require Import Base ChunkId ChunkIdProofs Posix PosixProofs ChunkFile Store StoreSpec StoreProofs1 StoreProofs2 StoreProofs3 StoreProofs4 StoreProofs5 StoreProofs7.
Local Open Scope N_scope.
Local Opaque BUFFER_SIZE CHUNK_LIMIT_MAX CHUNK_LIMIT_MIN.

Section Ops.
Context (codecs : ctype -> option codec) (bound : N -> N) (HC : codecs_ok bound codecs).
Context (genuine : list N -> list N -> Prop) (root : list N).
Notation safe := (safe codecs genuine root).
Notation complete := (complete codecs genuine root).

Lemma safe_ptry {A B} (p : prog (res A)) (f : A -> prog (res B)) Q g :
  safe (fun g r => match r with Ok a => safe Q g (f a) | Err e => Q g (Err e) | Abort => Q g Abort | UB => Q g UB end) g p ->
  safe Q g (ptry p f).
Proof. intros H. unfold ptry. apply safe_bind. eapply safe_mono; [|exact H]. intros g' [a|e| |] Ha; exact Ha. Qed.

(** ** Reading *)

Definition stays {A} (g : ghost) : ghost -> A -> Prop := fun g' _ => g' = g.

Lemma read_safe {A} fd n (k : list N -> prog (res A)) g : In fd (g_rd g) -> (forall b, safe (stays g) g (k b)) -> safe (stays g) g (ptry (sys_read fd n) k).
Proof.
  intros Hin Hk. apply safe_ptry. unfold sys_read. cbn. split; [reflexivity|]. split; [exact Hin|]. intros b. apply Hk.
Qed.

Lemma load_fd_safe fuel : forall fd buf count g, In fd (g_rd g) -> safe (stays g) g (load_fd fuel fd buf count).
Proof.
  induction fuel as [|fuel IH]; intros fd buf count g Hin; [exact I|]. cbn [load_fd]. destruct (_ <=? _); [reflexivity|].
  apply read_safe; [exact Hin|]. intros [|x b]; [destruct (_ <? _); reflexivity|]. apply IH. exact Hin.
Qed.

Lemma load_detect_safe fuel : forall fd have g, In fd (g_rd g) -> safe (stays g) g (load_detect fuel fd have).
Proof.
  induction fuel as [|fuel IH]; intros fd have g Hin; [exact I|]. cbn [load_detect]. destruct (_ <=? _); [reflexivity|].
  apply read_safe; [exact Hin|]. intros [|x b]; [reflexivity|]. destruct (detect_compression _) as [t|[]| |]; try reflexivity. apply IH. exact Hin.
Qed.

Lemma plift_safe {A} (x : option (res A)) (Q : ghost -> res A -> Prop) g : (forall r, x = Some r -> Q g r) -> safe Q g (plift x).
Proof. intros H. destruct x as [r|]; cbn; [apply H; reflexivity|exact I]. Qed.

Lemma decompress_fd_safe cd fuel : forall fd s inp buf cc dc g, In fd (g_rd g) -> safe (stays g) g (decompress_fd_loop cd fuel fd s inp buf cc dc).
Proof.
  induction fuel as [|fuel IH]; intros fd s inp buf cc dc g Hin; [exact I|]. cbn [decompress_fd_loop]. apply safe_ptry, plift_safe.
  intros [[[[s' buf'] dc'] eof]|e| |] _; try reflexivity. apply read_safe; [exact Hin|]. intros [|x b].
  - destruct (negb eof); [reflexivity|]. destruct (_ || _); reflexivity.
  - destruct eof; [reflexivity|]. destruct (_ <=? _); [reflexivity|]. apply IH. exact Hin.
Qed.

Lemma load_and_decompress_safe fuel fd buf g : In fd (g_rd g) -> safe (stays g) g (load_and_decompress_fd codecs fuel fd buf).
Proof.
  intros Hin. unfold load_and_decompress_fd. apply safe_ptry. eapply safe_mono; [|apply load_detect_safe; exact Hin].
  intros g' [[have t]|e| |] ->; try reflexivity. destruct (start_codec codecs (Some t)); try reflexivity. apply decompress_fd_safe. exact Hin.
Qed.

Lemma compress_fd_safe cd fuel : forall fd s buf cc dc g, In fd (g_rd g) -> safe (stays g) g (compress_fd_loop cd fuel fd s buf cc dc).
Proof.
  induction fuel as [|fuel IH]; intros fd s buf cc dc g Hin; [exact I|]. cbn [compress_fd_loop]. apply read_safe; [exact Hin|]. intros b. cbv zeta.
  destruct (_ <=? _); [reflexivity|]. apply safe_ptry, plift_safe.
  intros [[[[s' buf'] cc'] done]|e| |] _; try reflexivity. destruct done; [destruct (_ || _); reflexivity|]. apply IH. exact Hin.
Qed.

Lemma load_and_compress_safe fuel fd t buf g : In fd (g_rd g) -> safe (stays g) g (load_and_compress_fd codecs fuel fd t buf).
Proof. intros Hin. unfold load_and_compress_fd. destruct (start_codec codecs t); try reflexivity. apply compress_fd_safe. exact Hin. Qed.

Definition any {A} : ghost -> A -> Prop := fun _ _ => True.

Lemma chunk_file_load_safe fuel r0 id desired t buf g : safe any g (chunk_file_load codecs fuel r0 id desired t buf).
Proof.
  unfold chunk_file_load.
  assert (forall fd fc g, In fd (g_rd g) -> safe any g (
    try b <- match desired, fc with
             | UNCOMPRESSED, COMPRESSED => load_and_decompress_fd codecs fuel fd buf
             | COMPRESSED, UNCOMPRESSED => load_and_compress_fd codecs fuel fd t buf
             | _, _ => load_fd fuel fd buf 0
             end ;;
    Ret (Ok (b, if compression_eqb desired AS_IS then fc else desired)))) as Hgo.
  { intros fd fc g0 Hin. apply safe_ptry. eapply safe_mono with (Q := stays g0).
    - intros g1 [|e| |] _; exact I.
    - destruct desired, fc; (apply load_and_decompress_safe || apply load_and_compress_safe || apply load_fd_safe); exact Hin. }
  apply safe_bind. cbn. split.
  - intros e. destruct e; try exact I. split.
    + intros e. destruct e; exact I.
    + intros fd. apply Hgo. left. reflexivity.
  - intros fd. apply Hgo. left. reflexivity.
Qed.

Lemma store_get_safe digest fuel st id desired g : safe any g (store_get codecs digest fuel st id desired).
Proof.
  unfold store_get. destruct (st_root st) as [r0|]; [|exact I]. apply safe_ptry. eapply safe_mono; [|apply chunk_file_load_safe].
  intros g1 [[buf e]|er| |] _; try exact I. apply safe_ptry. destruct (compression_eqb e COMPRESSED).
  - apply plift_safe. intros [v|er| |] _; try exact I. destruct (store_validate digest st id v); exact I.
  - cbn. destruct (store_validate digest st id buf); exact I.
Qed.

(** ** Looking for names *)

Lemma access_safe r0 id s g : safe (stays g) g (chunk_file_access r0 id s).
Proof. cbn. split; [intros e; destruct e; reflexivity|reflexivity]. Qed.

Lemma test_safe r0 id g : safe (stays g) g (chunk_file_test r0 id).
Proof.
  unfold chunk_file_test. apply safe_bind. eapply safe_mono; [|apply access_safe]. intros g' [[]|e| |] ->; try reflexivity. apply access_safe.
Qed.

Lemma store_has_safe st id g : safe (stays g) g (store_has st id).
Proof. unfold store_has. destruct (st_root st); [apply test_safe|reflexivity]. Qed.

(** ** Writing *)

Definition writes (g : ghost) (T : list N) (fd : nat) (P : list N -> Prop) : ghost -> res unit -> Prop :=
  fun g' r => exists c, g' = with_own g (Owns T fd c) /\ (r = Ok tt -> P c).

Lemma loop_write_safe fuel : forall g T fd c p, g_own g = Owns T fd c -> safe (writes g T fd (eq (c ++ p))) g (loop_write fuel fd p).
Proof.
  induction fuel as [|fuel IH]; intros g T fd c p Hg; [exact I|]. cbn [loop_write].
  assert (g = with_own g (Owns T fd c)) as Eg by (destruct g; cbn in *; subst; reflexivity).
  destruct p as [|x p].
  - cbn. exists c. split; [exact Eg|]. intros _. apply app_nil_r.
  - set (d := x :: p). cbn. split; [intros e; exists c; split; [exact Eg|discriminate]|]. exists T, c. split; [exact Hg|]. intros n Hn.
    replace (n <=? len d) with true by (symmetry; apply N.leb_le; exact Hn).
    eapply safe_mono; [|apply (IH (with_own g (Owns T fd (c ++ takeN n d))) T fd (c ++ takeN n d)); reflexivity].
    intros g' r (c' & -> & Hc). exists c'. split; [reflexivity|]. intros Hr. rewrite <- (Hc Hr), <- app_assoc, takeN_dropN. reflexivity.
Qed.

Lemma save_compress_safe t cd T fuel : forall fd s d o fin inp cc g c,
  g_own g = Owns T fd c -> encodes bound t cd s d o fin -> (forall l, fin = Some l -> inp = l) -> cc = len o ->
  safe (writes g T fd (fun c' => exists q, c' = c ++ q /\ packed cd (o ++ q) (d ++ inp) /\ detect_compression (o ++ q) = Ok t /\ len (o ++ q) < CHUNK_LIMIT_MAX))
    g (save_compress_loop cd fuel fd s inp cc).
Proof.
  induction fuel as [|fuel IH]; intros fd s d o fin inp cc g c Hg HE Hfin Hcc; [exact I|].
  destruct (compressor_encode_ok bound t cd s d o fin true inp HE) as (s' & out & rr & inp' & E & Hr);
    [discriminate|intros l Hl; split; [reflexivity|exact (Hfin l Hl)]|].
  cbn [save_compress_loop]. rewrite E. apply safe_ptry. eapply safe_mono; [|apply (loop_write_safe _ g T fd c out Hg)].
  intros g' r1 (c1 & -> & H1). destruct r1 as [[]|er| |]; try (exists c1; split; [reflexivity|discriminate]).
  specialize (H1 eq_refl). subst c1. cbv zeta. destruct (CHUNK_LIMIT_MAX <=? cc + len out) eqn:Em; [exists (c ++ out); split; [reflexivity|discriminate]|].
  set (g1 := with_own g (Owns T fd (c ++ out))).
  assert (forall d', d' ++ inp' = d ++ inp -> encodes bound t cd s' d' (o ++ out) (Some inp') ->
    safe (writes g T fd (fun c' => exists q, c' = c ++ q /\ packed cd (o ++ q) (d ++ inp) /\ detect_compression (o ++ q) = Ok t /\ len (o ++ q) < CHUNK_LIMIT_MAX))
      g1 (save_compress_loop cd fuel fd s' inp' (cc + len out))) as Hmore.
  { intros d' A1 A2. eapply safe_mono; [|apply (IH fd s' d' (o ++ out) (Some inp') inp' _ g1 (c ++ out) eq_refl A2)].
    - intros g' r (c' & -> & Hc). exists c'. split; [reflexivity|]. intros Hr'. destruct (Hc Hr') as (q & -> & B1 & B2 & B3).
      exists (out ++ q). rewrite <- app_assoc in B1, B2, B3 |- *. rewrite <- A1. auto.
    - intros l Hl. congruence.
    - rewrite len_app. lia. }
  destruct rr.
  - destruct Hr as (_ & A1 & A2 & _). destruct (_ <? _); [exists (c ++ out); split; [reflexivity|discriminate]|].
    exists (c ++ out). split; [reflexivity|]. intros _. exists out. rewrite len_app. split; [reflexivity|]. split; [exact A1|]. split; [exact A2|lia].
  - destruct Hr as (d' & A1 & A2 & _). apply (Hmore d' A1 A2).
  - destruct Hr as (d' & A1 & A2 & _). apply (Hmore d' A1 A2).
Qed.

Lemma save_decompress_safe cd T fuel : forall fd s z p dc g c,
  g_own g = Owns T fd c -> decodes cd s z p ->
  safe (writes g T fd (fun c' => c' = c ++ p /\ dc + len p < CHUNK_LIMIT_MAX)) g (save_decompress_loop cd fuel fd s z dc).
Proof.
  induction fuel as [|fuel IH]; intros fd s z p dc g c Hg HD; [exact I|].
  destruct (decodes_step _ _ _ _ HD) as [Hz _].
  destruct (compressor_decode_ok cd s z p z [] HD (eq_sym (app_nil_r z)) Hz) as (s' & out & rr & p' & Ep & Hc).
  assert (exists inp', compressor_decode cd s z BUFFER_SIZE = Ok (s', inp', out, rr) /\
    ((rr = CEof /\ p' = []) \/ (rr = CMore /\ decodes cd s' inp' p'))) as (inp' & E & Hcase).
  { destruct Hc as [(-> & _ & -> & E)|[(-> & HD' & E)|(i' & -> & Hi & HD' & Hl & E)]].
    - exists []. auto.
    - destruct (decodes_step _ _ _ _ HD') as [Hz' _]. congruence.
    - exists i'. rewrite app_nil_r in HD'. auto. }
  cbn [save_decompress_loop]. rewrite E. apply safe_ptry. eapply safe_mono; [|apply (loop_write_safe _ g T fd c out Hg)].
  intros g' r1 (c1 & -> & H1). destruct r1 as [[]|er| |]; try (exists c1; split; [reflexivity|discriminate]).
  specialize (H1 eq_refl). subst c1. cbv zeta. destruct (CHUNK_LIMIT_MAX <=? dc + len out) eqn:Em; [exists (c ++ out); split; [reflexivity|discriminate]|].
  destruct Hcase as [[-> ->]|[-> HD']].
  - rewrite app_nil_r in Ep. subst out. destruct (_ <? _); (exists (c ++ p); split; [reflexivity|]); [discriminate|]. intros _. split; [reflexivity|lia].
  - eapply safe_mono; [|apply (IH fd s' inp' p' _ (with_own g (Owns T fd (c ++ out))) (c ++ out) eq_refl HD')].
    intros g' r (c' & -> & Hc'). exists c'. split; [reflexivity|]. intros Hr. destruct (Hc' Hr) as [-> Hl]. subst p. split; [rewrite app_assoc; reflexivity|]. rewrite len_app. lia.
Qed.

Lemma save_write_safe fuel g T fd effective desired t data p :
  effective <> AS_IS -> desired <> AS_IS -> represents codecs effective data p -> len data < CHUNK_LIMIT_MAX -> g_own g = Owns T fd [] ->
  safe (writes g T fd (fun c => represents codecs desired c p /\ len c < CHUNK_LIMIT_MAX)) g
    (if compression_eqb desired effective then loop_write fuel fd data
     else if compression_eqb desired COMPRESSED then save_and_compress_fd codecs fuel fd t data
     else save_and_decompress_fd codecs fuel fd data).
Proof.
  intros He Hd Hrep Hl Hg.
  assert (g = with_own g (Owns T fd [])) as Eg by (destruct g; cbn in *; subst; reflexivity).
  assert (forall P (e : res unit), e <> Ok tt -> safe (writes g T fd P) g (Ret e)) as Hno.
  { intros P e Hne. exists []. split; [exact Eg|congruence]. }
  destruct (compression_eqb desired effective) eqn:E.
  { assert (desired = effective) by (destruct desired, effective; cbn in E; congruence). subst effective.
    eapply safe_mono; [|apply loop_write_safe; exact Hg]. intros g' r (c & -> & Hc). exists c. split; [reflexivity|]. intros Hr. rewrite <- (Hc Hr). auto. }
  destruct (compression_eqb desired COMPRESSED) eqn:E2.
  - assert (desired = COMPRESSED) by (destruct desired; cbn in E2; congruence). subst desired.
    assert (effective = UNCOMPRESSED) by (destruct effective; cbn in E; congruence). subst effective. cbn in Hrep. subst p.
    unfold save_and_compress_fd. destruct (bad_size data); [apply Hno; discriminate|]. unfold start_codec. destruct t as [t|]; [|apply Hno; discriminate].
    destruct (codecs t) as [cd|] eqn:Ec; [|apply Hno; discriminate].
    destruct HC as [_ HC2]. pose proof (codec_ok_encodes _ _ _ (HC2 _ _ Ec)) as HE.
    eapply safe_mono; [|apply (save_compress_safe t cd T fuel fd (enc_new cd) [] [] None data 0 g [] Hg HE); [discriminate|reflexivity]].
    intros g' r (c & -> & Hc). exists c. split; [reflexivity|]. intros Hr. destruct (Hc Hr) as (q & -> & A & B & C). cbn [app] in *. split; [|exact C]. exists t, cd. auto.
  - assert (desired = UNCOMPRESSED) by (destruct desired; cbn in E2; congruence). subst desired.
    assert (effective = COMPRESSED) by (destruct effective; cbn in E; congruence). subst effective. cbn in Hrep.
    destruct Hrep as (t0 & cd & H1 & H2 & H3).
    unfold save_and_decompress_fd. destruct (bad_size data); [apply Hno; discriminate|].
    unfold detect_all. rewrite H1. cbn [bind start_codec]. rewrite H2.
    eapply safe_mono; [|apply (save_decompress_safe cd T fuel fd (dec_new cd) data p 0 g [] Hg H3)].
    intros g' r (c & -> & Hc). exists c. split; [reflexivity|]. intros Hr. destruct (Hc Hr) as [-> Hlt]. cbn. split; [reflexivity|lia].
Qed.

Lemma subdir_not_final id : ~ final root (subdir root id).
Proof. intros (id' & c & Hid & _ & E). revert E. apply subdir_not_chunk. exact Hid. Qed.

Lemma subdir_not_temp id : ~ temp root (subdir root id).
Proof. intros (id' & v & Hid & E). revert E. apply subdir_not_path. exact Hid. Qed.

Lemma make_subdir_safe id s g : no_slash s -> safe (stays g) g (make_subdir (chunk_id_format_path root id s)).
Proof.
  intros Hs. unfold make_subdir. rewrite dirname_path by exact Hs. cbn. split; [intros e; destruct e; reflexivity|].
  split; [apply subdir_not_final|]. split; [apply subdir_not_temp|reflexivity].
Qed.

Lemma drop_subdir_safe {A} made id s (r : res A) g : no_slash s -> safe (fun g' r' => g' = g /\ r' = r) g (drop_subdir made (chunk_id_format_path root id s) r).
Proof.
  intros Hs. unfold drop_subdir. destruct made; cbn; [|auto]. split; [auto|]. rewrite dirname_path by exact Hs. split; [apply subdir_not_temp|auto].
Qed.

Lemma create_safe id v g : id_ok id = true ->
  safe (fun g' r => match r with Ok fd => g' = with_own g (Owns (chunk_id_format_path root id (tmp_suffix v)) fd []) | _ => g' = g end) g
    (chunk_file_create root id (tmp_suffix v)).
Proof.
  intros Hid. unfold chunk_file_create. apply safe_ptry. eapply safe_mono; [|apply make_subdir_safe; apply tmp_no_slash].
  intros g' [made|e| |] ->; try reflexivity. cbn [StoreProofs7.safe]. split.
  - intros e. eapply safe_mono; [|apply drop_subdir_safe; apply tmp_no_slash]. intros g' r [-> ->]. reflexivity.
  - split; [|reflexivity]. exists id, v. auto.
Qed.

Lemma unlink_own_safe id v g : owned g = Some (chunk_id_format_path root id (tmp_suffix v)) -> safe any g (chunk_file_unlink root id (tmp_suffix v)).
Proof.
  intros Hg. unfold chunk_file_unlink. cbn [StoreProofs7.safe]. split; [intros e; exact I|]. right. split; [exact Hg|]. intros _. split; [intros e; exact I|].
  rewrite dirname_path by apply tmp_no_slash. split; [apply subdir_not_temp|intros; exact I].
Qed.

Lemma unlink_final_safe id c g : id_ok id = true -> c = UNCOMPRESSED \/ c = COMPRESSED ->
  safe any g (chunk_file_unlink root id (match c with UNCOMPRESSED => [] | _ => cacnk end)).
Proof.
  intros Hid Hc. unfold chunk_file_unlink. cbn [StoreProofs7.safe]. split; [intros e; exact I|]. left. split; [exists id, c; auto|]. intros _. split; [intros e; exact I|].
  rewrite dirname_path by apply suffix_no_slash. split; [apply subdir_not_temp|intros; exact I].
Qed.

(** Renaming; if it fails the temporary file is still ours, unless it is gone. *)
Lemma rename_safe T F fd c g : g_own g = Owns T fd c -> complete F c ->
  safe (fun g' r => forall e, r = Err e -> owned g' = Some T) g (rename_noreplace T F).
Proof.
  intros Hg Hc. unfold rename_noreplace. assert (owned g = Some T) as Ho by (unfold owned; rewrite Hg; reflexivity). cbn. split.
  - intros e. destruct (negb (errno_is_unsupported e)); [intros e' _; exact Ho|]. cbn. split.
    + intros e2. destruct (negb (errno_is_unsupported e2)); [intros e' _; exact Ho|]. cbn. split; [|intros _ e' _; exact Ho].
      intros e3. destruct e3; try (intros e' _; exact Ho). cbn. split; [intros e4 e' _; exact Ho|]. exists fd, c. split; [exact Hg|]. split; [exact Hc|]. intros _ e' He. discriminate.
    + exists fd, c. split; [exact Hg|]. split; [exact Hc|]. intros _. split.
      * intros e3. split; [intros e4 e' _; reflexivity|]. left. split; [eapply complete_final; eauto|]. intros _ e' _. reflexivity.
      * right. split; [reflexivity|]. intros _ e' He. discriminate.
  - exists fd, c. split; [exact Hg|]. split; [exact Hc|]. intros _ e' He. discriminate.
Qed.

Lemma save_safe fuel id effective desired t data p g :
  id_ok id = true -> represents codecs effective data p -> genuine id p -> len data < CHUNK_LIMIT_MAX ->
  safe any g (chunk_file_save codecs fuel root id effective desired t data).
Proof.
  intros Hid Hrep Hgen Hl. unfold chunk_file_save. destruct (compression_eqb effective AS_IS) eqn:Ea; [exact I|].
  assert (effective <> AS_IS) as Hea by (destruct effective; cbn in Ea; congruence).
  destruct data as [|x data']; [exact I|]. set (data := x :: data') in *.
  apply safe_ptry. eapply safe_mono; [|apply test_safe]. intros g0 [[]|e| |] _; try exact I.
  cbn [StoreProofs7.safe]. split; [intros e; exact I|]. intros v. cbv zeta. apply safe_ptry. eapply safe_mono; [|apply create_safe; exact Hid].
  intros g1 [fd|e| |] Hg1; try exact I. set (T := chunk_id_format_path root id (tmp_suffix v)) in *.
  set (fc := if compression_eqb desired AS_IS then effective else desired).
  assert (fc <> AS_IS) as Hfc by (unfold fc; destruct desired; cbn; congruence).
  assert (g_own g1 = Owns T fd []) as Ho by (rewrite Hg1; reflexivity).
  apply safe_bind. eapply safe_mono; [|apply (save_write_safe fuel g1 T fd effective fc t data p Hea Hfc Hrep Hl Ho)].
  intros g2 r (c & -> & Hc).
  assert (forall g (e : res unit), owned g = Some T -> safe any g (do _ <- chunk_file_unlink root id (tmp_suffix v) ;; Ret e)) as Hfail.
  { intros g2 e Hg2. apply safe_bind. eapply safe_mono; [|apply unlink_own_safe; exact Hg2]. intros; exact I. }
  destruct r as [[]|e| |]; [|apply Hfail; reflexivity|exact I|exact I].
  specialize (Hc eq_refl). apply safe_bind.
  assert (complete (chunk_id_format_path root id (if compression_eqb fc COMPRESSED then cacnk else [])) c) as Hcomp.
  { exists id, fc, p. split; [exact Hid|]. split; [destruct fc; [auto|auto|congruence]|]. split; [destruct fc; [reflexivity|reflexivity|congruence]|]. destruct Hc; auto. }
  eapply safe_mono; [|apply (rename_safe T _ fd c (with_own g1 (Owns T fd c)) eq_refl Hcomp)].
  intros g3 [[]|e| |] Hr; try exact I. apply Hfail. apply (Hr e). reflexivity.
Qed.

Lemma root_not_final : ~ final root root.
Proof. intros (id' & c & Hid & _ & E). revert E. apply root_not_path. exact Hid. Qed.

Lemma root_not_temp : ~ temp root root.
Proof. intros (id' & v & Hid & E). revert E. apply root_not_path. exact Hid. Qed.

Lemma store_put_safe vtd fuel st id effective data p g :
  st_root st = Some root -> id_ok id = true -> represents codecs effective data p -> genuine id p -> len data < CHUNK_LIMIT_MAX ->
  safe any g (store_put codecs vtd fuel st id effective data).
Proof.
  intros Hroot Hid Hrep Hgen Hl. unfold store_put. rewrite Hroot. cbn [pbind]. rewrite Hroot. apply safe_bind.
  assert (forall st1 g, safe any g (do r <- chunk_file_save codecs fuel root id effective (st_compression st1) (st_ctype st1) data ;; Ret (st1, r))) as Hsave.
  { intros st1 g1. apply safe_bind. eapply safe_mono; [|eapply save_safe; eauto]. intros; exact I. }
  destruct (st_mkdir_done st); [apply Hsave|]. cbn [StoreProofs7.safe]. split.
  - intros e. destruct e; try exact I. apply Hsave.
  - split; [apply root_not_final|]. split; [apply root_not_temp|]. intros _. apply Hsave.
Qed.

Lemma mark_missing_safe id g : id_ok id = true -> safe any g (chunk_file_mark_missing root id).
Proof.
  intros Hid. unfold chunk_file_mark_missing. apply safe_ptry. eapply safe_mono; [|apply test_safe]. intros g0 [[]|e| |] _; try exact I.
  cbv zeta. apply safe_ptry. eapply safe_mono; [|apply make_subdir_safe; intros []]. intros g1 [made|e| |] _; try exact I.
  cbn [StoreProofs7.safe]. split.
  - intros e. eapply safe_mono; [|apply drop_subdir_safe; intros []]. intros; exact I.
  - split; [exists id, UNCOMPRESSED; auto|]. intros; exact I.
Qed.

Lemma remove_safe id g : id_ok id = true -> safe any g (chunk_file_remove root id).
Proof.
  intros Hid. unfold chunk_file_remove. apply safe_bind. eapply safe_mono; [|apply (unlink_final_safe id UNCOMPRESSED g Hid); auto].
  intros g1 r _. pose proof (unlink_final_safe id COMPRESSED g1 Hid (or_intror eq_refl)) as H2.
  destruct r as [[]|e| |]; try exact I; [exact H2|]. destruct e; try exact I. exact H2.
Qed.

Lemma client_safe digest vtd fuel c : forall g, honest codecs root genuine c -> safe any g (client_prog codecs digest vtd fuel root c).
Proof.
  induction c as [|st id effective data k IH|st id desired k IH|st id k IH|id k IH|id k IH]; intros g H; cbn [client_prog honest] in *.
  - exact I.
  - destruct H as [(H1 & H2 & H3 & p & H4 & H5) H6]. apply safe_bind. eapply safe_mono; [|eapply store_put_safe; eauto]. intros; apply IH; auto.
  - apply safe_bind. eapply safe_mono; [|apply store_get_safe]. intros; apply IH; auto.
  - apply safe_bind. eapply safe_mono; [|apply store_has_safe]. intros; apply IH; auto.
  - destruct H as [H1 H2]. apply safe_bind. eapply safe_mono; [|apply mark_missing_safe; exact H1]. intros; apply IH; auto.
  - destruct H as [H1 H2]. apply safe_bind. eapply safe_mono; [|apply remove_safe; exact H1]. intros; apply IH; auto.
Qed.

Lemma clients_intact digest vtd fuel cs w w' ps :
  world_ok w -> intact codecs genuine root w -> Forall (honest codecs root genuine) cs ->
  psteps (w, map (client_prog codecs digest vtd fuel root) cs) (w', ps) -> intact codecs genuine root w'.
Proof.
  intros (_ & Hw & _) Hi Hcs H. destruct (psteps_ok codecs genuine root _ _ H) as [gs (_ & H2 & _)]; [|exact H2].
  set (g0 := {| g_own := Idle; g_rd := [] |}). exists (repeat g0 (length cs)). cbn [fst snd]. split; [exact Hw|]. split; [exact Hi|]. split.
  - clear H. induction Hcs as [|c cs Hc Hcs IH]; cbn [length repeat map]; constructor; [split|exact IH].
    + split; [intros fd []|exact I].
    + apply client_safe. exact Hc.
  - clear H Hcs. induction cs as [|c cs IH]; cbn; constructor; [|exact IH]. apply Forall_forall. intros g Hg. apply repeat_spec in Hg. subst g.
    split; [intros T HT; discriminate|]. split; intros T fd c' HT; discriminate.
Qed.
End Ops.
