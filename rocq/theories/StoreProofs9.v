(** A put succeeds when nothing stands in its way. *)
From Verif Require Import Base ChunkId ChunkIdProofs Posix PosixProofs ChunkFile Store StoreSpec StoreProofs1 StoreProofs2 StoreProofs3 StoreProofs4 StoreProofs5 StoreProofs6.
Local Open Scope N_scope.
Local Opaque BUFFER_SIZE CHUNK_LIMIT_MAX CHUNK_LIMIT_MIN.

Lemma ends_and f {A} (p : prog A) w (Q R : world -> A -> Prop) :
  ends f w p Q -> (forall w' a, exec f w p w' a -> R w' a) -> ends f w p (fun w' a => Q w' a /\ R w' a).
Proof.
  revert w. induction p as [a| |c k IH]; intros w H HR; cbn in *.
  - split; [exact H|]. apply HR. constructor.
  - contradiction.
  - destruct H as [H1 H2]. split; [exact H1|]. intros w' r Hs. apply IH; [auto|]. intros w2 a Hx. apply HR. econstructor; eauto.
Qed.

Lemma ends_ptry f {A B} (p : prog (res A)) (g : A -> prog (res B)) w Q :
  ends f w p (fun w' r => exists a, r = Ok a /\ ends f w' (g a) Q) -> ends f w (ptry p g) Q.
Proof. intros H. unfold ptry. apply ends_bind. eapply ends_mono; [|exact H]. cbv beta. intros w' r (a & -> & Ha). exact Ha. Qed.

Lemma loop_write_ends fuel : forall w fd p i c, writing w fd i c -> len p < N.of_nat fuel ->
  ends false w (loop_write fuel fd p) (fun w' r => r = Ok tt /\ w' = wrote w fd i (c ++ p)).
Proof.
  induction fuel as [|fuel IH]; intros w fd p i c HW Hf; [lia|]. cbn [loop_write]. destruct p as [|x p].
  - cbn. split; [reflexivity|]. rewrite app_nil_r, wrote_same by exact HW. reflexivity.
  - set (d := x :: p) in *. assert (0 < len d) as Hd by (unfold d; rewrite len_cons; lia). cbn [ends]. split.
    + destruct HW as [H1 H2]. eexists. eexists. eapply (s_write false w fd d i (len c) c (len d)); [exact H1|exact H2|lia|auto].
    + intros w' r Hs. destruct (sys_write_end _ _ _ _ _ _ _ _ Hs HW) as [(Hx & _)|(k & Hk & Hp & -> & ->)]; [discriminate|].
      destruct Hp as [Hp|Hp]; [|discriminate]. replace (k <=? len d) with true by lia.
      eapply ends_mono; [|apply (IH _ fd (dropN k d) i (c ++ takeN k d))].
      * cbv beta. intros w2 r [-> ->]. split; [reflexivity|]. rewrite wrote_wrote, <- app_assoc, takeN_dropN. reflexivity.
      * eapply wrote_writing; eauto.
      * rewrite len_dropN. lia.
Qed.

Lemma save_compress_ends (bound : N -> N) (t : ctype) (cd : codec) (mono : forall a b, a <= b -> bound a <= bound b) fuel : forall w fd s d o fin inp i c,
  writing w fd i c -> encodes bound t cd s d o fin -> (forall l, fin = Some l -> inp = l) ->
  bound (len (d ++ inp)) < CHUNK_LIMIT_MAX ->
  len inp + (bound (len (d ++ inp)) - len o) < N.of_nat fuel ->
  ends false w (save_compress_loop cd fuel fd s inp (len o)) (fun _ r => r = Ok tt).
Proof.
  induction fuel as [|fuel IH]; intros w fd s d o fin inp i c HW HE Hfin HB Hf; [lia|].
  destruct (compressor_encode_ok bound t cd s d o fin true inp HE) as (s' & out & r & inp' & E & Hr);
    [discriminate|intros l Hl; split; [reflexivity|exact (Hfin l Hl)]|].
  cbn [save_compress_loop]. rewrite E.
  assert (len o + len out = len (o ++ out)) as El by (rewrite len_app; reflexivity).
  assert (len (o ++ out) <= bound (len (d ++ inp)) /\ (r = CEof -> packed cd (o ++ out) (d ++ inp) /\ detect_compression (o ++ out) = Ok t)
    /\ (r <> CEof -> exists d', d' ++ inp' = d ++ inp /\ encodes bound t cd s' d' (o ++ out) (Some inp')
         /\ len inp' <= len inp /\ (len inp' < len inp \/ out <> []))) as (Hb & He & Hn).
  { assert (forall X, (exists d', d' ++ inp' = d ++ inp /\
            encodes bound t cd s' d' (o ++ out) (Some inp') /\ X /\
            len inp' <= len inp /\ (len inp' < len inp \/ out <> []) /\ len (o ++ out) <= bound (len d')) ->
       len (o ++ out) <= bound (len (d ++ inp)) /\ (exists d', d' ++ inp' = d ++ inp /\ encodes bound t cd s' d' (o ++ out) (Some inp')
         /\ len inp' <= len inp /\ (len inp' < len inp \/ out <> []))) as HX.
    { intros X (d' & A1 & A2 & _ & A3 & A4 & A5). split; [|exists d'; auto]. etransitivity; [exact A5|]. apply mono. rewrite <- A1, len_app. lia. }
    destruct r.
    - destruct Hr as (_ & A1 & A2 & A3). split; [exact A3|]. split; [auto|]. congruence.
    - apply HX in Hr. destruct Hr as [Hr1 Hr2]. split; [exact Hr1|]. split; [discriminate|auto].
    - apply HX in Hr. destruct Hr as [Hr1 Hr2]. split; [exact Hr1|]. split; [discriminate|auto]. }
  apply ends_ptry. eapply ends_mono; [|apply (loop_write_ends (S fuel) w fd out i c HW); lia].
  cbv beta. intros w1 r1 [-> ->]. exists tt. split; [reflexivity|].
  rewrite El. replace (CHUNK_LIMIT_MAX <=? len (o ++ out)) with false by lia.
  assert (r = CEof \/ r <> CEof) as [->|Hne] by (destruct r; [left; reflexivity|right; discriminate|right; discriminate]).
  - destruct (He eq_refl) as [He1 He2]. pose proof (packed_pos _ _ _ He1).
    replace (len (o ++ out) <? CHUNK_LIMIT_MIN) with false by lia. reflexivity.
  - destruct (Hn Hne) as (d' & A1 & A2 & A3 & A4).
    assert (ends false (wrote w fd i (c ++ out)) (save_compress_loop cd fuel fd s' inp' (len (o ++ out))) (fun _ r => r = Ok tt)) as Hx.
    { apply (IH _ fd s' d' (o ++ out) (Some inp') inp' i (c ++ out)).
      - eapply wrote_writing; eauto.
      - exact A2.
      - intros l Hl. congruence.
      - rewrite A1. exact HB.
      - rewrite A1. pose proof (len_app o out). destruct A4 as [A4|A4]; [lia|]. apply len_pos in A4. lia. }
    destruct r; [congruence|exact Hx|exact Hx].
Qed.

Lemma save_decompress_ends cd fuel : forall w fd s z p dc i c,
  writing w fd i c -> decodes cd s z p -> CHUNK_LIMIT_MIN <= dc + len p < CHUNK_LIMIT_MAX -> len z + len p < N.of_nat fuel ->
  ends false w (save_decompress_loop cd fuel fd s z dc) (fun _ r => r = Ok tt).
Proof.
  induction fuel as [|fuel IH]; intros w fd s z p dc i c HW HD Hp Hf; [lia|].
  destruct (decodes_step _ _ _ _ HD) as [Hz _].
  destruct (compressor_decode_ok cd s z p z [] HD (eq_sym (app_nil_r z)) Hz) as (s' & out & rr & p' & Ep & Hc).
  assert (exists inp', compressor_decode cd s z BUFFER_SIZE = Ok (s', inp', out, rr) /\
    ((rr = CEof /\ p' = []) \/ (rr = CMore /\ decodes cd s' inp' p' /\ len inp' + len p' < len z + len p))) as (inp' & E & Hcase).
  { destruct Hc as [(-> & _ & -> & E)|[(-> & HD' & E)|(i' & -> & Hi & HD' & Hl & E)]].
    - exists []. auto.
    - destruct (decodes_step _ _ _ _ HD') as [Hz' _]. congruence.
    - exists i'. rewrite app_nil_r in HD'. auto 6. }
  pose proof (len_app out p') as Hlp. rewrite <- Ep in Hlp.
  cbn [save_decompress_loop]. rewrite E. apply ends_ptry. eapply ends_mono; [|apply (loop_write_ends (S fuel) w fd out i c HW); lia].
  cbv beta. intros w1 r1 [-> ->]. exists tt. split; [reflexivity|].
  replace (CHUNK_LIMIT_MAX <=? dc + len out) with false by lia.
  destruct Hcase as [[-> ->]|(-> & HD' & Hl)].
  - change (@len N []) with 0 in Hlp. replace (dc + len out <? CHUNK_LIMIT_MIN) with false by lia. reflexivity.
  - apply (IH _ fd s' inp' p' _ i (c ++ out)); [eapply wrote_writing; eauto|exact HD'|lia|lia].
Qed.

Section Put.
Context (codecs : ctype -> option codec) (bound : N -> N) (HC : codecs_ok bound codecs).

(** What the given form of a chunk needs to be written as the desired one. *)
Definition convertible (effective desired : chunk_compression) (t : option ctype) (p : list N) : Prop :=
  effective = UNCOMPRESSED -> desired = COMPRESSED -> exists ct cd, t = Some ct /\ codecs ct = Some cd /\ bound (len p) < CHUNK_LIMIT_MAX.

Lemma save_write_ends fuel w fd i effective desired t data p :
  enough fuel -> effective <> AS_IS -> desired <> AS_IS -> represents codecs effective data p ->
  CHUNK_LIMIT_MIN <= len data <= CHUNK_LIMIT_MAX -> (desired <> effective -> CHUNK_LIMIT_MIN <= len p < CHUNK_LIMIT_MAX) ->
  convertible effective desired t p -> writing w fd i [] ->
  ends false w (if compression_eqb desired effective then loop_write fuel fd data
            else if compression_eqb desired COMPRESSED then save_and_compress_fd codecs fuel fd t data
            else save_and_decompress_fd codecs fuel fd data) (fun _ r => r = Ok tt).
Proof.
  intros Hfuel He Hd Hrep Hld Hlp Hcv HW. unfold enough in Hfuel.
  assert (bad_size data = false) as Eb by (unfold bad_size; lia).
  destruct (compression_eqb desired effective) eqn:E.
  { eapply ends_mono; [|apply loop_write_ends; [exact HW|lia]]. cbv beta. intros w' r [-> _]. reflexivity. }
  destruct (compression_eqb desired COMPRESSED) eqn:E2.
  - assert (desired = COMPRESSED) by (destruct desired; cbn in E2; congruence). subst desired.
    assert (effective = UNCOMPRESSED) by (destruct effective; cbn in E; congruence). subst effective. cbn in Hrep. subst p.
    destruct (Hcv eq_refl eq_refl) as (ct & cd & -> & Ec & Hb).
    specialize (Hlp ltac:(discriminate)).
    unfold save_and_compress_fd. rewrite Eb. cbn [start_codec]. rewrite Ec. destruct HC as [mono HC2]. pose proof (codec_ok_encodes _ _ _ (HC2 _ _ Ec)) as HE.
    change 0 with (len (@nil N)). apply (save_compress_ends bound ct cd mono fuel w fd (enc_new cd) [] [] None data i []); try assumption; [discriminate|].
    cbn [app]. change (len (@nil N)) with 0. lia.
  - assert (desired = UNCOMPRESSED) by (destruct desired; cbn in E2; congruence). subst desired.
    assert (effective = COMPRESSED) by (destruct effective; cbn in E; congruence). subst effective. cbn in Hrep.
    destruct Hrep as (t0 & cd & H1 & H2 & H3).
    specialize (Hlp ltac:(discriminate)).
    unfold save_and_decompress_fd. rewrite Eb. unfold detect_all. rewrite H1. cbn [bind start_codec]. rewrite H2.
    apply (save_decompress_ends cd fuel w fd (dec_new cd) data p 0 i []); [exact HW|exact H3|lia|lia].
Qed.

Lemma test_ends w root id : present w root id = false -> ends false w (chunk_file_test root id) (fun w' r => w' = w /\ r = Ok false).
Proof.
  intros Hp. pose proof (present_false w root id UNCOMPRESSED Hp (or_introl eq_refl)) as HU.
  pose proof (present_false w root id COMPRESSED Hp (or_intror eq_refl)) as HCo. unfold chunk_name in *.
  unfold chunk_file_test. apply ends_bind. unfold chunk_file_access. cbn [ends]. split; [eexists; eexists; apply s_access_noent; exact HCo|].
  intros w' r Hs. destruct (sys_access _ _ _ _ _ Hs) as [(Hx & _)|Hr]; [discriminate|]. rewrite HCo in Hr. destruct Hr as [-> ->]. cbn [ends]. split; [eexists; eexists; apply s_access_noent; exact HU|].
  intros w' r Hs2. destruct (sys_access _ _ _ _ _ Hs2) as [(Hx & _)|Hr]; [discriminate|]. rewrite HU in Hr. destruct Hr as [-> ->]. cbn. auto.
Qed.

Lemma create_ends w root id v : id_ok id = true ->
  (name_at w (subdir root id) = None \/ name_at w (subdir root id) = Some NDir) -> name_at w (chunk_id_format_path root id (tmp_suffix v)) = None ->
  ends false w (chunk_file_create root id (tmp_suffix v)) (fun _ r => exists fd, r = Ok fd).
Proof.
  intros Hid Hsub HT. unfold chunk_file_create. apply ends_ptry. unfold make_subdir. rewrite dirname_path by apply tmp_no_slash.
  set (T := chunk_id_format_path root id (tmp_suffix v)) in *.
  assert (forall w1, name_at w1 (subdir root id) = Some NDir -> name_at w1 T = None -> forall made,
    ends false w1 (Sys (SCreat T) (fun r => match r with RFd fd => Ret (Ok fd) | RFail e => drop_subdir made T (Err e) | _ => Ret UB end)) (fun _ r => exists fd, r = Ok fd)) as Hgo.
  { intros w1 HD HT1 made. assert (dirname T = subdir root id) as Ed by (apply dirname_path; apply tmp_no_slash). cbn [ends]. split.
    - eexists. eexists. apply s_creat; [exact HT1|]. rewrite Ed. exact HD.
    - intros w' r Hs. destruct (sys_creat _ _ _ _ _ Hs) as [(Hx & _)|Hr]; [discriminate|]. rewrite HT1 in Hr. rewrite Ed in Hr.
      destruct Hr as [(_ & _ & Hx)|(-> & -> & _)]; [contradiction|]. cbn. eauto. }
  cbn [ends]. destruct (name_at w (subdir root id)) as [nd|] eqn:En.
  - destruct Hsub as [?|E]; [discriminate|]. injection E as ->. split; [eexists; eexists; eapply s_mkdir_exist; exact En|].
    intros w' r Hs. destruct (sys_mkdir _ _ _ _ _ Hs) as [(Hx & _)|Hr]; [discriminate|]. rewrite En in Hr. destruct Hr as [-> ->]. cbn [ends].
    eexists. split; [reflexivity|]. apply Hgo; assumption.
  - split; [eexists; eexists; apply s_mkdir; exact En|].
    intros w' r Hs. destruct (sys_mkdir _ _ _ _ _ Hs) as [(Hx & _)|Hr]; [discriminate|]. rewrite En in Hr. destruct Hr as [-> ->]. cbn [ends].
    eexists. split; [reflexivity|]. apply Hgo; [apply name_put_same|]. rewrite name_put_other; [exact HT|]. apply subdir_not_path. exact Hid.
Qed.

Lemma rename_ends w p q n : name_at w p = Some n -> name_at w q = None -> ends false w (rename_noreplace p q) (fun _ r => r = Ok tt).
Proof.
  intros Hp Hq. unfold rename_noreplace. cbn [ends]. split; [eexists; eexists; eapply s_rename; eassumption|].
  intros w' r Hs. destruct (sys_rename_noreplace _ _ _ _ _ _ Hs) as [(Hx & _)|Hr]; [discriminate|]. rewrite Hp, Hq in Hr. destruct Hr as [-> ->]. reflexivity.
Qed.

Lemma save_ends fuel w root id effective desired t data p :
  enough fuel -> id_ok id = true -> effective <> AS_IS -> represents codecs effective data p ->
  CHUNK_LIMIT_MIN <= len data <= CHUNK_LIMIT_MAX -> (form effective desired <> effective -> CHUNK_LIMIT_MIN <= len p < CHUNK_LIMIT_MAX) ->
  convertible effective (form effective desired) t p ->
  present w root id = false -> (name_at w (subdir root id) = None \/ name_at w (subdir root id) = Some NDir) ->
  (forall v, name_at w (chunk_id_format_path root id (tmp_suffix v)) = None) ->
  ends false w (chunk_file_save codecs fuel root id effective desired t data) (fun _ r => r = Ok tt).
Proof.
  intros Hfuel Hid Hea Hrep Hld Hlp Hcv Hpres Hsub Htmp. unfold chunk_file_save.
  assert (CHUNK_LIMIT_MAX <= CHUNK_LIMIT_MAX + 1) as HL1 by lia. assert (len data < CHUNK_LIMIT_MAX + 1) as HL2 by lia.
  assert (compression_eqb effective AS_IS = false) as -> by (destruct effective; [reflexivity|reflexivity|congruence]).
  destruct data as [|x data']; [change (len (@nil N)) with 0 in Hld; change CHUNK_LIMIT_MIN with 1 in Hld; lia|]. set (data := x :: data') in *.
  apply ends_ptry. eapply ends_mono; [|apply test_ends; exact Hpres]. cbv beta. intros w1 r1 [-> ->]. exists false. split; [reflexivity|].
  cbn [ends]. split; [eexists; eexists; apply (s_random false w 0); reflexivity|].
  intros w1 r1 Hs. destruct (sys_random _ _ _ _ Hs) as [(Hx & _)|(v & -> & -> & _)]; [discriminate|]. cbv zeta.
  apply ends_ptry. eapply ends_mono; [|apply ends_and; [apply create_ends; [exact Hid|exact Hsub|apply Htmp]|intros w1 a Hx; exact (create_exec _ _ _ _ _ _ _ (tmp_no_slash v) Hx)]].
  cbv beta. intros w1 r1 [(fd & ->) H1]. exists fd. split; [reflexivity|]. change (if compression_eqb desired AS_IS then effective else desired) with (form effective desired).
  set (fc := form effective desired) in *. set (T := chunk_id_format_path root id (tmp_suffix v)) in *. set (F := chunk_name root id fc).
  assert (fc <> AS_IS) as Hfc by (unfold fc, form; destruct desired; cbn; congruence).
  destruct H1 as (w0 & Hs0 & HT & Hf0 & -> & ->). set (n := length (w_inodes w0)) in *. set (w1 := add_fd (add_file w0 T) n) in *. set (fd := length (w_fds w)) in *.
  assert (writing w1 fd n []) as HW.
  { unfold writing, w1, fd, n. cbn. rewrite <- Hf0. split.
    - rewrite nth_error_app2, Nat.sub_diag by lia. reflexivity.
    - rewrite nth_error_app2, Nat.sub_diag by lia. reflexivity. }
  assert (T <> F) as HTF by (apply names_differ; exact Hid).
  assert (subdir root id <> F) as HDF by (apply subdir_not_chunk; exact Hid).
  apply ends_bind. eapply ends_mono; [|apply ends_and; [apply (save_write_ends fuel w1 fd n effective fc t data p); assumption|
    intros w2 r Hx; exact (save_write_exec codecs bound HC (CHUNK_LIMIT_MAX + 1) HL1 _ _ _ _ n _ _ _ _ p _ _ Hea Hfc Hrep HL2 HW Hx)]].
  cbv beta. intros w2 r2 [-> (c & -> & _)]. set (w2 := wrote w1 fd n c) in *.
  assert (chunk_id_format_path root id (if compression_eqb fc COMPRESSED then cacnk else []) = F) as EF.
  { unfold F, chunk_name. destruct fc; [reflexivity|reflexivity|congruence]. }
  rewrite EF. apply ends_bind. eapply ends_mono; [|apply (rename_ends w2 T F (NFile n))].
  - cbv beta. intros w3 r3 ->. reflexivity.
  - unfold w2, wrote, w1. rewrite name_set_pos, name_set_content, name_add_fd, name_add_file, beq_refl. reflexivity.
  - unfold w2, wrote, w1. rewrite name_set_pos, name_set_content, name_add_fd, name_add_file. assert (beq T F = false) as -> by (apply beq_neq; exact HTF).
    destruct Hs0 as [_ Hs0]. rewrite Hs0 by exact HDF. apply (present_false w root id fc Hpres). destruct fc; [auto|auto|congruence].
Qed.

Lemma store_put_ends vtd fuel w st root id effective data p :
  enough fuel -> st_root st = Some root -> id_ok id = true -> represents codecs effective data p ->
  CHUNK_LIMIT_MIN <= len data <= CHUNK_LIMIT_MAX -> (form effective (st_compression st) <> effective -> CHUNK_LIMIT_MIN <= len p < CHUNK_LIMIT_MAX) ->
  convertible effective (form effective (st_compression st)) (st_ctype st) p ->
  present w root id = false -> (name_at w (subdir root id) = None \/ name_at w (subdir root id) = Some NDir) ->
  (forall v, name_at w (chunk_id_format_path root id (tmp_suffix v)) = None) ->
  ends false w (store_put codecs vtd fuel st id effective data) (fun _ x => snd x = Ok tt).
Proof.
  intros Hfuel Hroot Hid Hrep Hld Hlp Hcv Hpres Hsub Htmp. unfold store_put. rewrite Hroot. cbn [pbind]. rewrite Hroot. apply ends_bind.
  assert (effective <> AS_IS) as Hea by (intros ->; exact Hrep).
  assert (forall st1 w1, st_compression st1 = st_compression st -> st_ctype st1 = st_ctype st ->
    (forall q, q <> root -> name_at w1 q = name_at w q) ->
    ends false w1 (do r <- chunk_file_save codecs fuel root id effective (st_compression st1) (st_ctype st1) data ;; Ret (st1, r)) (fun _ x => snd x = Ok tt)) as Hsave.
  { intros st1 w1 E1 E2 Hn. apply ends_bind. rewrite E1, E2. eapply ends_mono; [|apply (save_ends fuel w1 root id effective (st_compression st) (st_ctype st) data p); try assumption].
    - cbv beta. intros w2 r ->. reflexivity.
    - rewrite (present_kept w w1); [exact Hpres|]. intros c. apply Hn. intros E. symmetry in E. revert E. unfold chunk_name. apply root_not_path. exact Hid.
    - rewrite Hn; [exact Hsub|]. unfold subdir. intros E. apply (f_equal (@length N)) in E. rewrite app_length, firstn_length, (id_ok_format _ Hid) in E. cbn in E. lia.
    - intros v. rewrite Hn; [apply Htmp|]. intros E. symmetry in E. revert E. apply root_not_path. exact Hid. }
  destruct (st_mkdir_done st).
  - cbn [ends]. apply Hsave; reflexivity.
  - cbn [ends]. destruct (name_at w root) as [nd|] eqn:En.
    + split; [eexists; eexists; eapply s_mkdir_exist; exact En|]. intros w' r Hs. destruct (sys_mkdir _ _ _ _ _ Hs) as [(Hx & _)|Hr]; [discriminate|].
      rewrite En in Hr. destruct Hr as [-> ->]. cbn [ends]. apply Hsave; reflexivity.
    + split; [eexists; eexists; apply s_mkdir; exact En|]. intros w' r Hs. destruct (sys_mkdir _ _ _ _ _ Hs) as [(Hx & _)|Hr]; [discriminate|].
      rewrite En in Hr. destruct Hr as [-> ->]. cbn [ends]. apply Hsave; [reflexivity..|]. intros q Hq. apply name_put_other. congruence.
Qed.
End Put.
