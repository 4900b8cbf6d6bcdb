(** Reading from a store in runs in which any system call may fail: what is delivered is still what is stored. *)
From Verif Require Import Base ChunkId ChunkIdProofs Posix PosixProofs ChunkFile Store StoreSpec StoreProofs1 StoreProofs2 StoreProofs3 StoreProofs4 StoreProofs5 StoreProofs6.
Local Open Scope N_scope.
Local Opaque BUFFER_SIZE CHUNK_LIMIT_MAX CHUNK_LIMIT_MIN chunk_id_format_path.

(** A program that writes nothing and gives up at the first fault. *)
Fixpoint strict {A} (p : prog (res A)) : Prop :=
  match p with
  | Ret _ | Hang => True
  | Sys c k => (forall fd d, c <> SWrite fd d) /\
               (forall e, fault e = true -> exists r, k (RFail e) = Ret r /\ forall a, r <> Ok a) /\
               forall r, strict (k r)
  end.

Lemma sys_true_false w c w' r : sys true w c w' r -> (forall fd d, c <> SWrite fd d) ->
  sys false w c w' r \/ exists e, r = RFail e /\ fault e = true.
Proof.
  intros H Hc. destruct H; try (exfalso; eapply Hc; reflexivity); [right; eauto|..]; left;
    (solve [econstructor; eassumption | econstructor]).
Qed.

Lemma strict_exec {A} (p : prog (res A)) : strict p -> forall w w' a, exec true w p w' (Ok a) -> exec false w p w' (Ok a).
Proof.
  induction p as [r| |c k IH]; intros Hp w w' a H.
  - apply exec_ret_inv in H. destruct H as [-> ->]. constructor.
  - inversion H.
  - destruct Hp as (Hc & Hf & Hk). apply exec_sys_inv in H. destruct H as (w1 & r & Hs & H).
    destruct (sys_true_false _ _ _ _ Hs Hc) as [Hs'|(e & -> & He)].
    + econstructor; [exact Hs'|]. apply IH; [apply Hk|exact H].
    + exfalso. destruct (Hf e He) as (r & Hr & Hne). rewrite Hr in H. apply exec_ret_inv in H. destruct H as [_ H]. eapply Hne. symmetry. exact H.
Qed.

Lemma strict_ptry {A B} (p : prog (res A)) (f : A -> prog (res B)) : strict p -> (forall a, strict (f a)) -> strict (ptry p f).
Proof.
  intros Hp Hf. unfold ptry. induction p as [r| |c k IH]; cbn.
  - destruct r; cbn; auto.
  - exact I.
  - destruct Hp as (Hc & He & Hk). split; [exact Hc|]. split; [|intros r; apply IH; apply Hk].
    intros e Hx. destruct (He e Hx) as (r & -> & Hr). cbn [pbind]. destruct r as [a|e2| |]; [exfalso; eapply Hr; reflexivity|..]; eexists; (split; [reflexivity|discriminate]).
Qed.

Lemma strict_plift {A} (x : option (res A)) : strict (plift x). Proof. destruct x; exact I. Qed.

Lemma strict_read fd n : strict (sys_read fd n).
Proof. cbn. split; [discriminate|]. split; [intros e _; eexists; split; [reflexivity|discriminate]|]. intros []; exact I. Qed.

Lemma strict_load_fd fuel : forall fd buf c, strict (load_fd fuel fd buf c).
Proof.
  induction fuel as [|fuel IH]; intros; [exact I|]. cbn [load_fd]. destruct (_ <=? _); [exact I|]. apply strict_ptry; [apply strict_read|].
  intros [|x b]; [destruct (_ <? _); exact I|apply IH].
Qed.

Lemma strict_load_detect fuel : forall fd have, strict (load_detect fuel fd have).
Proof.
  induction fuel as [|fuel IH]; intros; [exact I|]. cbn [load_detect]. destruct (_ <=? _); [exact I|]. apply strict_ptry; [apply strict_read|].
  intros [|x b]; [exact I|]. destruct (detect_compression _) as [t|[]| |]; try exact I. apply IH.
Qed.

Lemma strict_decompress_fd cd fuel : forall fd s inp buf cc dc, strict (decompress_fd_loop cd fuel fd s inp buf cc dc).
Proof.
  induction fuel as [|fuel IH]; intros; [exact I|]. cbn [decompress_fd_loop]. apply strict_ptry; [apply strict_plift|].
  intros [[[s' buf'] dc'] eof]. apply strict_ptry; [apply strict_read|]. intros [|x b].
  - destruct (negb eof); [exact I|]. destruct (_ || _); exact I.
  - destruct eof; [exact I|]. cbv zeta. destruct (_ <=? _); [exact I|]. apply IH.
Qed.

Lemma strict_compress_fd cd fuel : forall fd s buf cc dc, strict (compress_fd_loop cd fuel fd s buf cc dc).
Proof.
  induction fuel as [|fuel IH]; intros; [exact I|]. cbn [compress_fd_loop]. apply strict_ptry; [apply strict_read|].
  intros b. cbv zeta. destruct (_ <=? _); [exact I|]. apply strict_ptry; [apply strict_plift|].
  intros [[[s' buf'] cc'] done]. destruct done; [destruct (_ || _); exact I|apply IH].
Qed.

Lemma strict_load_from codecs fuel fd desired fc t : strict (load_from codecs fuel fd desired fc t).
Proof.
  unfold load_from. apply strict_ptry; [|intros; exact I].
  assert (strict (load_and_decompress_fd codecs fuel fd [])) as H1.
  { unfold load_and_decompress_fd. apply strict_ptry; [apply strict_load_detect|]. intros [have ct]. destruct (start_codec codecs (Some ct)); try exact I. apply strict_decompress_fd. }
  assert (strict (load_and_compress_fd codecs fuel fd t [])) as H2.
  { unfold load_and_compress_fd. destruct (start_codec codecs t); try exact I. apply strict_compress_fd. }
  destruct desired, fc; try exact H1; try exact H2; apply strict_load_fd.
Qed.

Lemma strict_load codecs fuel root id desired t : strict (chunk_file_load codecs fuel root id desired t []).
Proof.
  unfold chunk_file_load. cbv zeta.
  match goal with |- context [chunk_file_open root id (if compression_eqb ?a UNCOMPRESSED then [] else cacnk)] => set (c1 := a) end.
  set (c2 := if compression_eqb desired UNCOMPRESSED then COMPRESSED else UNCOMPRESSED).
  unfold chunk_file_open. cbn [pbind strict]. split; [discriminate|]. split.
  - intros e He. destruct e; try discriminate; cbn [pbind]; eexists; (split; [reflexivity|discriminate]).
  - intros [n|fd|b|l|e]; cbn [pbind]; try exact I; [apply (strict_load_from codecs fuel fd desired c1 t)|].
    destruct e; try exact I. cbn [pbind strict]. split; [discriminate|]. split.
    + intros e He. destruct e; try discriminate; cbn [pbind]; eexists; (split; [reflexivity|discriminate]).
    + intros [n|fd|b|l|e]; cbn [pbind]; try exact I; [apply (strict_load_from codecs fuel fd desired c2 t)|]. destruct e; exact I.
Qed.

Lemma strict_get codecs digest fuel st id desired : strict (store_get codecs digest fuel st id desired).
Proof.
  unfold store_get. destruct (st_root st); [|exact I]. apply strict_ptry; [apply strict_load|]. intros [b e].
  apply strict_ptry; [destruct (compression_eqb e COMPRESSED); [apply strict_plift|exact I]|].
  intros v. destruct (store_validate digest st id v); exact I.
Qed.

(** ** Compressing while reading, whatever the size of the result *)

Lemma encode_input_sound (bound : N -> N) (t : ctype) (cd : codec) fuel : forall s d o fin (finish : bool) inp buf cc s' b cc' eof,
  encodes bound t cd s d o fin -> (finish = false -> inp <> []) -> (forall l, fin = Some l -> finish = true /\ inp = l) ->
  encode_input cd fuel s finish inp buf cc = Some (Ok (s', b, cc', eof)) ->
  exists out, b = buf ++ out /\ cc' = cc + len out /\ cc' < CHUNK_LIMIT_MAX /\
    (if eof : bool then finish = true /\ packed cd (o ++ out) (d ++ inp) /\ detect_compression (o ++ out) = Ok t
     else encodes bound t cd s' (d ++ inp) (o ++ out) (if finish then Some [] else None)).
Proof.
  induction fuel as [|fuel IH]; intros s d o fin finish inp buf cc s' b cc' eof HE Hne Hfin H; [discriminate|].
  destruct (compressor_encode_ok bound t cd s d o fin finish inp HE Hne Hfin) as (s1 & out & r & inp' & E & Hr).
  cbn [encode_input] in H. rewrite E in H. cbv beta iota zeta in H.
  destruct (CHUNK_LIMIT_MAX <=? cc + len out) eqn:Em; [discriminate|]. destruct r.
  - destruct Hr as (-> & A1 & A2 & _). injection H as <- <- <- <-. exists out. split; [reflexivity|]. split; [reflexivity|]. split; [lia|]. auto.
  - destruct Hr as (d' & A1 & A2 & A3 & _).
    destruct (IH s1 d' (o ++ out) (if finish then Some inp' else None) finish inp' (buf ++ out) (cc + len out) s' b cc' eof A2) as (o2 & -> & -> & Hm & B); [|..].
    + intros _. apply A3. reflexivity.
    + intros l Hl. destruct finish; [split; [reflexivity|congruence]|discriminate].
    + exact H.
    + exists (out ++ o2). rewrite !app_assoc. split; [reflexivity|]. rewrite len_app. split; [lia|]. split; [lia|]. rewrite A1 in B. exact B.
  - destruct Hr as (d' & A1 & A2 & A3 & _). injection H as <- <- <- <-.
    assert (inp' = []) as ->. { destruct inp'; [reflexivity|]. exfalso. assert (CGood = CMore) by (apply A3; discriminate). discriminate. }
    rewrite app_nil_r in A1. subst d'. exists out. split; [reflexivity|]. split; [reflexivity|]. split; [lia|exact A2].
Qed.

Lemma exec_read {A} w fd n (k : list N -> prog (res A)) rest w' a : reading w fd rest ->
  exec false w (try b <- sys_read fd n ;; k b) w' a ->
  exists w1, same_files w w1 /\ reading w1 fd (dropN n rest) /\ exec false w1 (k (takeN n rest)) w' a.
Proof.
  intros HR H.
  assert (ends false w (sys_read fd n) (fun w1 r => same_files w w1 /\ reading w1 fd (dropN n rest) /\ r = Ok (takeN n rest))) as He.
  { pose proof (ends_read fd n (fun b => Ret (Ok b)) w rest (fun w1 r => same_files w w1 /\ reading w1 fd (dropN n rest) /\ r = Ok (takeN n rest)) HR) as Hx.
    cbn in Hx. cbn. destruct Hx as [Hx1 Hx2]; [intros w1 H1 H2; cbn; auto|]. split; [exact Hx1|].
    intros w1 r Hs. specialize (Hx2 w1 r Hs). destruct r; cbn in Hx2 |- *; exact Hx2. }
  unfold ptry in H. apply exec_bind in H. destruct H as (w1 & r & H1 & H).
  pose proof (ends_exec _ _ _ _ _ _ He H1) as (A1 & A2 & ->). eauto.
Qed.

Lemma compress_fd_loop_sound (bound : N -> N) (t : ctype) (cd : codec) fuel : forall w fd s d o fin rest cc dc w' b,
  reading w fd rest -> encodes bound t cd s d o fin -> (forall l, fin = Some l -> l = [] /\ rest = []) -> cc = len o ->
  exec false w (compress_fd_loop cd fuel fd s o cc dc) w' (Ok b) ->
  packed cd b (d ++ rest) /\ detect_compression b = Ok t /\ len b < CHUNK_LIMIT_MAX.
Proof.
  induction fuel as [|fuel IH]; intros w fd s d o fin rest cc dc w' b HR HE Hfin -> H; [inversion H|].
  cbn [compress_fd_loop] in H. apply (exec_read _ _ _ _ _ _ _ HR) in H. destruct H as (w1 & Hsm & HR1 & H).
  set (bb := takeN BUFFER_SIZE rest) in *. cbv zeta in H. pose proof buffer_pos.
  destruct (CHUNK_LIMIT_MAX <=? dc + len bb); [apply exec_ret_inv in H; destruct H; discriminate|].
  unfold ptry in H. apply exec_bind in H. destruct H as (w2 & r2 & H2 & H).
  unfold plift in H2. destruct (encode_input cd (S fuel) s (len bb <? BUFFER_SIZE) bb o (len o)) as [x|] eqn:E; [|inversion H2].
  apply exec_ret_inv in H2. destruct H2 as [-> ->]. destruct x as [[[[s' b1] cc'] done]|e| |]; try (apply exec_ret_inv in H; destruct H; discriminate).
  assert ((len bb <? BUFFER_SIZE) = true -> bb = rest /\ dropN BUFFER_SIZE rest = []) as Hlast.
  { intros Hx. assert (len rest <= BUFFER_SIZE) by (unfold bb in Hx; rewrite len_takeN in Hx; lia).
    unfold bb. rewrite takeN_all, dropN_all by lia. auto. }
  destruct (encode_input_sound bound t cd (S fuel) s d o fin (len bb <? BUFFER_SIZE) bb o (len o) s' b1 cc' done HE) as (out & -> & -> & Hm & B); [| |exact E|].
  - intros Hx Ey. rewrite Ey in Hx. change (@len N []) with 0 in Hx. lia.
  - intros l Hl. destruct (Hfin l Hl) as [-> ->]. unfold bb, takeN. rewrite firstn_nil. split; [|reflexivity]. change (@len N []) with 0. lia.
  - destruct done.
    + destruct B as (B1 & B2 & B3). destruct (Hlast B1) as [-> _]. destruct (_ || _) in H; [apply exec_ret_inv in H; destruct H; discriminate|].
      apply exec_ret_inv in H. destruct H as [_ H]. injection H as ->. split; [exact B2|]. split; [exact B3|]. rewrite len_app. lia.
    + assert (d ++ bb ++ dropN BUFFER_SIZE rest = d ++ rest) as Ed by (unfold bb; rewrite takeN_dropN; reflexivity).
      rewrite <- Ed, app_assoc. rewrite <- len_app in H.
      eapply (IH w1 fd s' (d ++ bb) (o ++ out) _ (dropN BUFFER_SIZE rest)); [exact HR1|exact B| |reflexivity|exact H].
      intros l Hl2. destruct (len bb <? BUFFER_SIZE); [|discriminate]. destruct (Hlast eq_refl) as [_ ->]. split; [congruence|reflexivity].
Qed.

(** What is delivered of a chunk that is there; no case of a chunk that isn't. *)
Section Get.
Context (codecs : ctype -> option codec) (bound : N -> N) (HC : codecs_ok bound codecs).

Lemma load_from_exec fuel fd w desired fc t content p w' b e :
  enough fuel -> reading w fd content ->
  represents codecs fc content p -> len content < CHUNK_LIMIT_MAX -> CHUNK_LIMIT_MIN <= len p < CHUNK_LIMIT_MAX ->
  exec false w (load_from codecs fuel fd desired fc t) w' (Ok (b, e)) ->
  represents codecs e b p /\ len b < CHUNK_LIMIT_MAX.
Proof.
  intros Hf HR Hrep Hl Hp H.
  assert ((desired = COMPRESSED /\ fc = UNCOMPRESSED) \/ ~ (desired = COMPRESSED /\ fc = UNCOMPRESSED)) as [[-> ->]|Hn].
  { destruct desired, fc; auto; right; intros [? ?]; discriminate. }
  - cbn in Hrep. subst content. unfold load_from, ptry in H. apply exec_bind in H. destruct H as (w1 & r1 & H1 & H).
    destruct r1 as [b1|er| |]; apply exec_ret_inv in H; destruct H as [_ H]; try discriminate. cbn in H. injection H as -> ->.
    unfold load_and_compress_fd in H1. destruct t as [t|]; [|apply exec_ret_inv in H1; destruct H1; discriminate].
    unfold start_codec in H1. destruct (codecs t) as [cd|] eqn:Ec; [|apply exec_ret_inv in H1; destruct H1; discriminate].
    destruct HC as [_ HC2]. destruct (compress_fd_loop_sound bound t cd fuel w fd (enc_new cd) [] [] None p 0 0 w1 b1 HR (codec_ok_encodes _ _ _ (HC2 _ _ Ec))) as (B1 & B2 & B3);
      [discriminate|reflexivity|exact H1|]. split; [|exact B3]. exists t, cd. auto.
  - pose proof (load_from_ok codecs bound fuel fd w desired fc t content p HC Hf HR Hrep Hl Hp) as Hx.
    assert (ends false w (load_from codecs fuel fd desired fc t) (fun w' r => load_result codecs w w' desired p r)) as Hy.
    { apply Hx. intros H1 H2. exfalso. apply Hn. auto. }
    destruct (ends_exec _ _ _ _ _ _ Hy H) as (_ & b' & e' & E & R1 & R2 & _). injection E as <- <-. auto.
Qed.

Lemma load_exec f fuel w root id desired t p w' b e :
  enough fuel -> holds codecs w root id p -> CHUNK_LIMIT_MIN <= len p < CHUNK_LIMIT_MAX ->
  exec f w (chunk_file_load codecs fuel root id desired t []) w' (Ok (b, e)) ->
  represents codecs e b p /\ len b < CHUNK_LIMIT_MAX.
Proof.
  intros Hf Hh Hp H. assert (exec false w (chunk_file_load codecs fuel root id desired t []) w' (Ok (b, e))) as H0.
  { destruct f; [apply strict_exec; [apply strict_load|exact H]|exact H]. }
  clear H. rename H0 into H. pose proof (holds_forms _ _ _ _ _ Hh) as Hforms.
  assert (forall w1 c sfx w2 (r : res nat), c = UNCOMPRESSED \/ c = COMPRESSED -> sfx = match c with UNCOMPRESSED => [] | _ => cacnk end ->
    same_files w w1 -> exec false w1 (chunk_file_open root id sfx) w2 r ->
    same_files w w2 /\ match r with
    | Ok fd => exists content, reading w2 fd content /\ represents codecs c content p /\ len content < CHUNK_LIMIT_MAX
    | _ => True end) as Hop.
  { intros w1 c sfx w2 r Hc -> [S1 S2] Hx. pose proof (Hforms c Hc) as Hfc. unfold chunk_name in Hfc.
    assert (ends false w1 (do r <- chunk_file_open root id (match c with UNCOMPRESSED => [] | _ => cacnk end) ;; Ret r)
      (fun w2 r => same_files w w2 /\ match r with
      | Ok fd => exists content, reading w2 fd content /\ represents codecs c content p /\ len content < CHUNK_LIMIT_MAX
      | _ => True end)) as He.
    { apply ends_open. intros w3 r3 S3 Hr. unfold name_at in Hr. rewrite S1, S2 in Hr. fold (name_at w (chunk_id_format_path root id match c with UNCOMPRESSED => [] | _ => cacnk end)) in Hr.
      cbn [ends]. split; [eapply same_files_trans; [split; eassumption|exact S3]|].
      destruct (name_at w (chunk_id_format_path root id match c with UNCOMPRESSED => [] | _ => cacnk end)) as [[| |i]|]; try (subst r3; exact I).
      destruct Hr as (fd & -> & Hrd). destruct Hfc as (content & Hn & Hrep & Hl). exists content. auto. }
    refine (ends_exec _ _ _ _ _ _ He _). apply exec_bind. exists w2, r. split; [exact Hx|constructor]. }
  assert (forall c w1 fd, c = UNCOMPRESSED \/ c = COMPRESSED -> exec false w1 (load_from codecs fuel fd desired c t) w' (Ok (b, e)) ->
    (exists content, reading w1 fd content /\ represents codecs c content p /\ len content < CHUNK_LIMIT_MAX) ->
    represents codecs e b p /\ len b < CHUNK_LIMIT_MAX) as Hgo.
  { intros c w1 fd Hc Hx (content & H1 & H2 & H3). eapply load_from_exec; eauto. }
  unfold chunk_file_load in H. cbv zeta in H.
  set (c1 := if compression_eqb desired UNCOMPRESSED then UNCOMPRESSED else COMPRESSED) in *.
  set (c2 := if compression_eqb desired UNCOMPRESSED then COMPRESSED else UNCOMPRESSED) in *.
  assert (c1 = UNCOMPRESSED \/ c1 = COMPRESSED) as Hc1 by (unfold c1; destruct desired; cbn; auto).
  assert (c2 = UNCOMPRESSED \/ c2 = COMPRESSED) as Hc2 by (unfold c2; destruct desired; cbn; auto).
  assert (forall c, c = UNCOMPRESSED \/ c = COMPRESSED -> (if compression_eqb c UNCOMPRESSED then [] else cacnk) = match c with UNCOMPRESSED => [] | _ => cacnk end) as Hsfx.
  { intros c [->| ->]; reflexivity. }
  apply exec_bind in H. destruct H as (w1 & r1 & H1 & H).
  destruct (Hop w c1 _ w1 r1 Hc1 (Hsfx c1 Hc1) (same_files_refl w) H1) as [S1 R1].
  destruct r1 as [fd|er| |]; try (apply exec_ret_inv in H; destruct H; discriminate).
  - exact (Hgo c1 w1 fd Hc1 H R1).
  - destruct er; try (apply exec_ret_inv in H; destruct H; discriminate). apply exec_bind in H. destruct H as (w2 & r2 & H2 & H).
    destruct (Hop w1 c2 _ w2 r2 Hc2 (Hsfx c2 Hc2) S1 H2) as [S2 R2].
    destruct r2 as [fd|er| |]; try (apply exec_ret_inv in H; destruct H; discriminate).
    + exact (Hgo c2 w2 fd Hc2 H R2).
    + destruct er; apply exec_ret_inv in H; destruct H; discriminate.
Qed.

Lemma load_absent f fuel w root id desired t w' r :
  present w root id = false -> exec f w (chunk_file_load codecs fuel root id desired t []) w' r -> exists er, r = Err er.
Proof.
  intros Hp H. unfold chunk_file_load in H. cbv zeta in H.
  pose proof (present_false w root id UNCOMPRESSED Hp (or_introl eq_refl)) as HU.
  pose proof (present_false w root id COMPRESSED Hp (or_intror eq_refl)) as HCo. unfold chunk_name in *.
  assert (forall c w1 r1, exec f w (chunk_file_open root id (if compression_eqb c UNCOMPRESSED then [] else cacnk)) w1 r1 -> w1 = w /\ exists er, r1 = Err er) as Hop.
  { intros c w1 r1 Hx. unfold chunk_file_open in Hx. apply exec_sys_inv in Hx. destruct Hx as (w2 & r2 & Hs & Hx).
    assert (name_at w (chunk_id_format_path root id (if compression_eqb c UNCOMPRESSED then [] else cacnk)) = None) as E by (destruct c; cbn [compression_eqb]; assumption).
    destruct (sys_open _ _ _ _ _ Hs) as [(_ & -> & e & -> & _)|Hr]; [apply exec_ret_inv in Hx; destruct Hx as [-> ->]; eauto|].
    rewrite E in Hr. destruct Hr as [-> ->]. apply exec_ret_inv in Hx; destruct Hx as [-> ->]; eauto. }
  apply exec_bind in H. destruct H as (w1 & r1 & H1 & H). destruct (Hop _ _ _ H1) as [-> (er & ->)].
  destruct er; try (apply exec_ret_inv in H; destruct H as [_ ->]; eauto).
  apply exec_bind in H. destruct H as (w2 & r2 & H2 & H). destruct (Hop _ _ _ H2) as [-> (er & ->)].
  destruct er; apply exec_ret_inv in H; destruct H as [_ ->]; eauto.
Qed.

Lemma store_get_exec f fuel digest w st root id desired w' st' b e :
  enough fuel -> st_root st = Some root -> exec f w (store_get codecs digest fuel st id desired) w' (Ok (st', b, e)) ->
  present w root id = true /\
  forall p, holds codecs w root id p -> CHUNK_LIMIT_MIN <= len p < CHUNK_LIMIT_MAX -> represents codecs e b p.
Proof.
  intros Hf Hroot H. unfold store_get in H. rewrite Hroot in H. unfold ptry in H. apply exec_bind in H. destruct H as (w1 & r1 & H1 & H).
  split.
  - destruct (present w root id) eqn:Ep; [reflexivity|]. destruct (load_absent _ _ _ _ _ _ _ _ _ Ep H1) as (er & ->). apply exec_ret_inv in H. destruct H; discriminate.
  - intros p Hh Hp. destruct r1 as [[buf eff]|er| |]; try (apply exec_ret_inv in H; destruct H; discriminate).
    destruct (load_exec _ _ _ _ _ _ _ _ _ _ _ Hf Hh Hp H1) as [Hr _].
    apply exec_bind in H. destruct H as (w2 & r2 & H2 & H). destruct r2 as [v|er| |]; try (apply exec_ret_inv in H; destruct H; discriminate).
    destruct (store_validate digest st id v); apply exec_ret_inv in H; destruct H as [_ H]; try discriminate. injection H as -> -> ->. exact Hr.
Qed.

End Get.

(** Reading doesn't change files. *)
Fixpoint reads {A} (p : prog A) : Prop :=
  match p with
  | Ret _ | Hang => True
  | Sys c k => match c with SOpen _ | SRead _ _ => True | _ => False end /\ forall r, reads (k r)
  end.

Lemma reads_exec {A} (p : prog A) : reads p -> forall f w w' a, exec f w p w' a -> same_files w w'.
Proof.
  induction p as [r| |c k IH]; intros Hp f w w' a H.
  - apply exec_ret_inv in H. destruct H as [-> _]. apply same_files_refl.
  - inversion H.
  - destruct Hp as [Hc Hk]. apply exec_sys_inv in H. destruct H as (w1 & r & Hs & H). apply (same_files_trans w w1); [|eapply IH; [apply Hk|exact H]].
    destruct c; try contradiction; inversion Hs; subst; split; reflexivity.
Qed.

Lemma reads_bind {A B} (p : prog A) (f : A -> prog B) : reads p -> (forall a, reads (f a)) -> reads (pbind p f).
Proof. intros Hp Hf. induction p as [r| |c k IH]; cbn; [apply Hf|exact I|]. destruct Hp as [Hc Hk]. split; [exact Hc|]. intros r. apply IH. apply Hk. Qed.

Lemma reads_ptry {A B} (p : prog (res A)) (f : A -> prog (res B)) : reads p -> (forall a, reads (f a)) -> reads (ptry p f).
Proof. intros Hp Hf. apply reads_bind; [exact Hp|]. intros []; cbn; auto. Qed.

Lemma reads_plift {A} (x : option (res A)) : reads (plift x). Proof. destruct x; exact I. Qed.

Lemma reads_read fd n : reads (sys_read fd n).
Proof. cbn. split; [exact I|]. intros []; exact I. Qed.

Lemma reads_load_fd fuel : forall fd buf c, reads (load_fd fuel fd buf c).
Proof.
  induction fuel as [|fuel IH]; intros; [exact I|]. cbn [load_fd]. destruct (_ <=? _); [exact I|]. apply reads_ptry; [apply reads_read|].
  intros [|x b]; [destruct (_ <? _); exact I|apply IH].
Qed.

Lemma reads_load_detect fuel : forall fd have, reads (load_detect fuel fd have).
Proof.
  induction fuel as [|fuel IH]; intros; [exact I|]. cbn [load_detect]. destruct (_ <=? _); [exact I|]. apply reads_ptry; [apply reads_read|].
  intros [|x b]; [exact I|]. destruct (detect_compression _) as [t|[]| |]; try exact I. apply IH.
Qed.

Lemma reads_decompress_fd cd fuel : forall fd s inp buf cc dc, reads (decompress_fd_loop cd fuel fd s inp buf cc dc).
Proof.
  induction fuel as [|fuel IH]; intros; [exact I|]. cbn [decompress_fd_loop]. apply reads_ptry; [apply reads_plift|].
  intros [[[s' buf'] dc'] eof]. apply reads_ptry; [apply reads_read|]. intros [|x b].
  - destruct (negb eof); [exact I|]. destruct (_ || _); exact I.
  - destruct eof; [exact I|]. cbv zeta. destruct (_ <=? _); [exact I|]. apply IH.
Qed.

Lemma reads_compress_fd cd fuel : forall fd s buf cc dc, reads (compress_fd_loop cd fuel fd s buf cc dc).
Proof.
  induction fuel as [|fuel IH]; intros; [exact I|]. cbn [compress_fd_loop]. apply reads_ptry; [apply reads_read|].
  intros b. cbv zeta. destruct (_ <=? _); [exact I|]. apply reads_ptry; [apply reads_plift|].
  intros [[[s' buf'] cc'] done]. destruct done; [destruct (_ || _); exact I|apply IH].
Qed.

Lemma reads_load_from codecs fuel fd desired fc t : reads (load_from codecs fuel fd desired fc t).
Proof.
  unfold load_from. apply reads_ptry; [|intros; exact I].
  assert (reads (load_and_decompress_fd codecs fuel fd [])) as H1.
  { unfold load_and_decompress_fd. apply reads_ptry; [apply reads_load_detect|]. intros [have ct]. destruct (start_codec codecs (Some ct)); try exact I. apply reads_decompress_fd. }
  assert (reads (load_and_compress_fd codecs fuel fd t [])) as H2.
  { unfold load_and_compress_fd. destruct (start_codec codecs t); try exact I. apply reads_compress_fd. }
  destruct desired, fc; try exact H1; try exact H2; apply reads_load_fd.
Qed.

Lemma reads_get codecs digest fuel st id desired : reads (store_get codecs digest fuel st id desired).
Proof.
  unfold store_get. destruct (st_root st) as [root|]; [|exact I]. apply reads_ptry.
  - unfold chunk_file_load. cbv zeta.
    match goal with |- context [chunk_file_open root id (if compression_eqb ?a UNCOMPRESSED then [] else cacnk)] => set (c1 := a) end.
    set (c2 := if compression_eqb desired UNCOMPRESSED then COMPRESSED else UNCOMPRESSED).
    assert (forall s, reads (chunk_file_open root id s)) as Ho. { intros s. cbn. split; [exact I|]. intros []; exact I. }
    apply reads_bind; [apply Ho|]. intros [fd|e| |]; try exact I; [apply (reads_load_from codecs fuel fd desired c1 (st_ctype st))|].
    destruct e; try exact I. apply reads_bind; [apply Ho|]. intros [fd|e| |]; try exact I; [apply (reads_load_from codecs fuel fd desired c2 (st_ctype st))|].
    destruct e; exact I.
  - intros [b e]. apply reads_ptry; [destruct (compression_eqb e COMPRESSED); [apply reads_plift|exact I]|].
    intros v. destruct (store_validate digest st id v); exact I.
Qed.

Lemma contains_same codecs w w' root m : same_files w w' -> contains codecs w root m -> contains codecs w' root m.
Proof.
  intros [H1 H2] H id Hid. specialize (H id Hid).
  assert (forall q, name_at w' q = name_at w q) as Hn by (intros q; unfold name_at; rewrite H1; reflexivity).
  assert (forall q, file_at w' q = file_at w q) as Hf by (intros q; unfold file_at; rewrite Hn, H2; reflexivity).
  destruct (m id) as [p|].
  - destruct H as [(c & content & Hc) Hr]. split; [exists c, content; rewrite Hf; exact Hc|]. intros c' Hc'. rewrite Hn, Hf. exact (Hr c' Hc').
  - unfold present in *. rewrite !Hn. exact H.
Qed.
