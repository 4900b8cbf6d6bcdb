(** C35: which errors come out of reading a chunk, and what a seed answers. *)
From Verif Require Import Base Locator ChunkId Posix PosixProofs ChunkFile Location LocationHeap Cache Queue Store StoreSpec StoreProofs1 StoreProofs2 StoreProofs3 StoreProofs4 StoreProofs10
  CacheProofs2 CacheProofs3 QueueProofs4 SyncGet SyncGetSpec.
Local Open Scope N_scope.

(** ** Errors that reading doesn't give *)

Fixpoint quiet (bad : errno -> Prop) {A} (p : prog (res A)) : Prop :=
  match p with
  | Ret r => forall e, bad e -> r <> Err e
  | Hang => True
  | Sys c k => (exists fd n, c = SRead fd n) /\ forall r, (forall e, r = RFail e -> ~ bad e) -> quiet bad (k r)
  end.

Definition absent (e : errno) : Prop := e = ENOENT.
Definition absent_or_mark (e : errno) : Prop := e = ENOENT \/ e = EADDRNOTAVAIL.

Lemma quiet_exec (bad : errno -> Prop) f {A} (p : prog (res A)) : (forall e, bad e -> f = true -> fault e = false) ->
  quiet bad p -> forall w w' e, exec f w p w' (Err e) -> ~ bad e.
Proof.
  intros Hb. induction p as [r| |c k IH]; intros Hq w w' e H.
  - apply exec_ret_inv in H. destruct H as [_ <-]. intros Hbe. exact (Hq e Hbe eq_refl).
  - inversion H.
  - destruct Hq as [(fd & n & ->) Hq]. apply exec_sys_inv in H. destruct H as (w1 & r & Hs & H). eapply IH; [|exact H]. apply Hq.
    intros e' -> Hbe. inversion Hs; subst. rewrite (Hb e' Hbe) in *; [discriminate|reflexivity].
Qed.

Lemma quiet_bind bad {A B} (p : prog (res A)) (g : A -> prog (res B)) : quiet bad p -> (forall a, quiet bad (g a)) -> quiet bad (ptry p g).
Proof.
  intros Hp Hg. unfold ptry. induction p as [r| |c k IH]; cbn.
  - destruct r as [a|e| |]; [apply Hg|..]; cbn; intros e' He' Hx; try discriminate. injection Hx as ->. exact (Hp e' He' eq_refl).
  - exact I.
  - destruct Hp as [Hc Hp]. split; [exact Hc|]. intros r Hr. apply IH. apply Hp. exact Hr.
Qed.

Definition io_only (bad : errno -> Prop) : Prop := forall e, bad e -> e = ENOENT \/ e = EADDRNOTAVAIL.

Section Quiet.
Context (bad : errno -> Prop) (Hbad : io_only bad).

Lemma never e : e <> ENOENT -> e <> EADDRNOTAVAIL -> bad e -> False.
Proof. intros H1 H2 H. destruct (Hbad e H); contradiction. Qed.

Ltac q := cbn; intros er Her Hx; first [discriminate Hx | injection Hx as <-; refine (never _ _ _ Her); discriminate].

Lemma quiet_read fd n : quiet bad (sys_read fd n).
Proof.
  cbn. split; [eauto|]. intros [k|d|b|l|e] Hr; cbn; intros e' He' Hx; try discriminate. injection Hx as ->. exact (Hr e' eq_refl He').
Qed.

Lemma quiet_load_fd fuel : forall fd buf c, quiet bad (load_fd fuel fd buf c).
Proof.
  induction fuel as [|fuel IH]; intros; [exact I|]. cbn [load_fd]. destruct (_ <=? _); [q|]. apply quiet_bind; [apply quiet_read|].
  intros [|x b]; [destruct (_ <? _); q|apply IH].
Qed.

Lemma quiet_load_detect fuel : forall fd have, quiet bad (load_detect fuel fd have).
Proof.
  induction fuel as [|fuel IH]; intros; [exact I|]. cbn [load_detect]. destruct (_ <=? _); [q|]. apply quiet_bind; [apply quiet_read|].
  intros [|x b]; [q|]. unfold detect_compression.
  repeat match goal with |- context [if ?c then _ else _] => destruct c end; try q. apply IH.
Qed.

Definition calm {A} (x : option (res A)) : Prop := forall e, x = Some (Err e) -> ~ bad e.
Lemma quiet_plift {A} (x : option (res A)) : calm x -> quiet bad (plift x).
Proof. intros H. destruct x as [r|]; cbn; [|exact I]. intros e He ->. exact (H e eq_refl He). Qed.

Ltac c := intros e Hx; first [discriminate Hx | injection Hx as <-; intros Her; refine (never _ _ _ Her); discriminate].

Lemma calm_decode_input cd fuel : forall s inp buf dc, calm (decode_input cd fuel s inp buf dc).
Proof.
  induction fuel as [|fuel IH]; intros; [c|]. cbn [decode_input]. unfold compressor_decode. destruct inp as [|x inp]; [c|].
  destruct (dec_step cd s (x :: inp) BUFFER_SIZE) as [[[[s' n] out] [|]]|]; [| |c]; destruct (n <? _); try c; cbv zeta; (destruct (_ <=? _); [c|]); try c. apply IH.
Qed.
Lemma calm_encode_input cd fuel : forall s f inp buf cc, calm (encode_input cd fuel s f inp buf cc).
Proof.
  induction fuel as [|fuel IH]; intros; [c|]. cbn [encode_input]. unfold compressor_encode.
  destruct (enc_step cd s f inp BUFFER_SIZE) as [[[[s' n] out] [|]]|]; [| |c]; destruct (n <? _); try c; cbv zeta; (destruct (_ <=? _); [c|]); try c. apply IH.
Qed.
Lemma calm_compress_loop cd fuel : forall s inp buf cc, calm (compress_loop cd fuel s inp buf cc).
Proof.
  induction fuel as [|fuel IH]; intros; [c|]. cbn [compress_loop]. unfold compressor_encode.
  destruct (enc_step cd s true inp BUFFER_SIZE) as [[[[s' n] out] [|]]|]; [| |c]; destruct (n <? _); try c; cbv zeta; (destruct (_ <=? _); [c|]); try apply IH.
  destruct (_ <? _); c.
Qed.
Lemma calm_decompress_loop cd fuel : forall s inp buf cc, calm (decompress_loop cd fuel s inp buf cc).
Proof.
  induction fuel as [|fuel IH]; intros; [c|]. cbn [decompress_loop]. unfold compressor_decode. destruct inp as [|x inp]; [c|].
  destruct (dec_step cd s (x :: inp) BUFFER_SIZE) as [[[[s' n] out] [|]]|]; [| |c]; destruct (n <? _); try c; cbv zeta; (destruct (_ <=? _); [c|]); try apply IH.
  destruct (_ <? _); c.
Qed.
Lemma calm_compress codecs fuel t data : calm (compress codecs fuel t data []).
Proof. unfold compress. destruct (bad_size data); [c|]. unfold start_codec. destruct t as [t|]; [|c]. destruct (codecs t); [apply calm_compress_loop|c]. Qed.
Lemma calm_decompress codecs fuel data : calm (decompress codecs fuel data []).
Proof.
  unfold decompress. destruct (bad_size data); [c|]. unfold detect_all, detect_compression.
  repeat match goal with |- context [if ?c then _ else _] => destruct c end; cbn [bind start_codec]; try c; destruct (codecs _); try c; apply calm_decompress_loop.
Qed.

Lemma quiet_decompress_fd cd fuel : forall fd s inp buf cc dc, quiet bad (decompress_fd_loop cd fuel fd s inp buf cc dc).
Proof.
  induction fuel as [|fuel IH]; intros; [exact I|]. cbn [decompress_fd_loop]. apply quiet_bind; [apply quiet_plift, calm_decode_input|].
  intros [[[s' buf'] dc'] eof]. apply quiet_bind; [apply quiet_read|]. intros [|x b].
  - destruct (negb eof); [q|]. destruct (_ || _); q.
  - destruct eof; [q|]. cbv zeta. destruct (_ <=? _); [q|]. apply IH.
Qed.
Lemma quiet_compress_fd cd fuel : forall fd s buf cc dc, quiet bad (compress_fd_loop cd fuel fd s buf cc dc).
Proof.
  induction fuel as [|fuel IH]; intros; [exact I|]. cbn [compress_fd_loop]. apply quiet_bind; [apply quiet_read|].
  intros b. cbv zeta. destruct (_ <=? _); [q|]. apply quiet_bind; [apply quiet_plift, calm_encode_input|].
  intros [[[s' buf'] cc'] done]. destruct done; [destruct (_ || _); q|apply IH].
Qed.
Lemma quiet_load_from codecs fuel fd desired fc t : quiet bad (load_from codecs fuel fd desired fc t).
Proof.
  unfold load_from. apply quiet_bind; [|intros; q].
  assert (quiet bad (load_and_decompress_fd codecs fuel fd [])) as H1.
  { unfold load_and_decompress_fd. apply quiet_bind; [apply quiet_load_detect|]. intros [have ct]. unfold start_codec. destruct (codecs ct); [apply quiet_decompress_fd|q]. }
  assert (quiet bad (load_and_compress_fd codecs fuel fd t [])) as H2.
  { unfold load_and_compress_fd, start_codec. destruct t as [ct|]; [|q]. destruct (codecs ct); [apply quiet_compress_fd|q]. }
  destruct desired, fc; try exact H1; try exact H2; apply quiet_load_fd.
Qed.
End Quiet.

Lemma io_absent : io_only absent. Proof. intros e ->; auto. Qed.
Lemma io_mark : io_only absent_or_mark. Proof. intros e H; exact H. Qed.
Lemma fault_absent f e : absent e -> f = true -> fault e = false. Proof. intros -> _. reflexivity. Qed.

(** ** Loading a chunk that fails *)
Definition first_form (desired : chunk_compression) : chunk_compression := match desired with UNCOMPRESSED => UNCOMPRESSED | _ => COMPRESSED end.
Definition second_form (desired : chunk_compression) : chunk_compression := match desired with UNCOMPRESSED => COMPRESSED | _ => UNCOMPRESSED end.

Lemma open_exec f w root id c w' r : exec f w (chunk_file_open root id (if compression_eqb c UNCOMPRESSED then [] else cacnk)) w' r ->
  same_files w w' /\
  match r with
  | Ok _ => exists i, name_at w (chunk_name root id c) = Some (NFile i)
  | Err ENOENT => name_at w (chunk_name root id c) = None
  | Err ELOOP => exists t, name_at w (chunk_name root id c) = Some (NLink t)
  | Err e => f = false -> e = EISDIR
  | _ => False
  end.
Proof.
  intros H. unfold chunk_file_open in H. apply exec_sys_inv in H. destruct H as (w1 & r1 & Hs & H).
  assert (chunk_id_format_path root id (if compression_eqb c UNCOMPRESSED then [] else cacnk) = chunk_name root id c) as E.
  { unfold chunk_name. destruct c; reflexivity. }
  rewrite E in Hs. inversion Hs; subst; apply exec_ret_inv in H; destruct H as [-> ->].
  - split; [apply same_files_refl|]. destruct e; try discriminate; intros; discriminate.
  - split; [apply same_add_fd|eauto].
  - split; [apply same_files_refl|assumption].
  - split; [apply same_files_refl|eauto].
  - split; [apply same_files_refl|reflexivity].
Qed.

Lemma name_same w w' p : same_files w w' -> name_at w' p = name_at w p.
Proof. intros [H _]. unfold name_at. rewrite H. reflexivity. Qed.
Lemma file_same w w' p : same_files w w' -> file_at w' p = file_at w p.
Proof. intros H. unfold file_at. rewrite (name_same _ _ _ H). destruct H as [_ ->]. reflexivity. Qed.

Lemma load_err codecs f fuel w root id desired t w' r : exec f w (chunk_file_load codecs fuel root id desired t []) w' r ->
  match r with
  | Err ENOENT => forall c, name_at w (chunk_name root id c) = None
  | Err EADDRNOTAVAIL => f = false ->
     (exists t, name_at w (chunk_name root id (first_form desired)) = Some (NLink t)) \/
     (name_at w (chunk_name root id (first_form desired)) = None /\ exists t, name_at w (chunk_name root id (second_form desired)) = Some (NLink t))
  | Ok _ => exists c i, name_at w (chunk_name root id c) = Some (NFile i)
  | _ => True
  end.
Proof.
  intros H. unfold chunk_file_load in H. cbv zeta in H. apply exec_bind in H. destruct H as (w1 & r1 & H1 & H).
  assert ((if compression_eqb desired UNCOMPRESSED then UNCOMPRESSED else COMPRESSED) = first_form desired) as E1 by (destruct desired; reflexivity).
  assert ((if compression_eqb desired UNCOMPRESSED then COMPRESSED else UNCOMPRESSED) = second_form desired) as E2 by (destruct desired; reflexivity).
  rewrite E1, E2 in *. apply open_exec in H1. destruct H1 as [Hs1 H1].
  assert (forall w2 fd c, exec f w2 (load_from codecs fuel fd desired c t) w' r -> (exists i, name_at w (chunk_name root id c) = Some (NFile i)) ->
    match r with
    | Err ENOENT => forall c, name_at w (chunk_name root id c) = None
    | Err EADDRNOTAVAIL => f = false ->
       (exists t, name_at w (chunk_name root id (first_form desired)) = Some (NLink t)) \/
       (name_at w (chunk_name root id (first_form desired)) = None /\ exists t, name_at w (chunk_name root id (second_form desired)) = Some (NLink t))
    | Ok _ => exists c i, name_at w (chunk_name root id c) = Some (NFile i)
    | _ => True
    end) as Hload.
  { intros w2 fd c Hx (i & Hi). destruct r as [x|e| |]; try exact I; [eauto|].
    pose proof (quiet_exec absent f _ (fault_absent f) (quiet_load_from absent io_absent codecs fuel fd desired c t) _ _ _ Hx) as Hn.
    destruct e; try exact I; [exfalso; apply Hn; reflexivity|]. intros ->.
    exfalso. refine (quiet_exec absent_or_mark false _ _ (quiet_load_from _ io_mark codecs fuel fd desired c t) _ _ _ Hx _); [discriminate|right; reflexivity]. }
  destruct r1 as [fd|e| |]; try contradiction.
  { apply (Hload _ _ _ H H1). }
  assert (e = ENOENT \/ e = ELOOP \/ (e <> ENOENT /\ e <> ELOOP)) as He by (destruct e; auto; right; right; split; discriminate).
  destruct He as [->|[->|[He1 He2]]].
  - apply exec_bind in H. destruct H as (w2 & r2 & H2 & H). apply open_exec in H2. destruct H2 as [Hs2 H2].
    rewrite !(name_same _ _ _ Hs1) in H2.
    destruct r2 as [fd|e| |]; try contradiction.
    { apply (Hload _ _ _ H H2). }
    assert (exec f w2 (Ret (match e with ELOOP => Err EADDRNOTAVAIL | e => Err e end)) w' r) as H' by (destruct e; exact H).
    apply exec_ret_inv in H'. destruct H' as [_ ->]. clear H.
    destruct e; try exact I.
    + intros c. unfold first_form, second_form in *. destruct c, desired; first [exact H1|exact H2|idtac].
      all: unfold chunk_name in *; first [exact H1|exact H2].
    + intros ->. discriminate (H2 eq_refl).
    + intros _. right. auto.
  - apply exec_ret_inv in H. destruct H as [_ ->]. intros _. left. exact H1.
  - assert (exec f w1 (Ret (Err e)) w' r) as H' by (destruct e; try exact H; contradiction).
    apply exec_ret_inv in H'. destruct H' as [_ ->]. destruct e; try exact I; try contradiction. intros ->. discriminate (H1 eq_refl).
Qed.
