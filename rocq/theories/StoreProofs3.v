(** Reading from a store. *)
From Verif Require Import Base ChunkId ChunkIdProofs Posix PosixProofs ChunkFile Store StoreSpec StoreProofs1 StoreProofs2.
Local Open Scope N_scope.
Local Opaque BUFFER_SIZE CHUNK_LIMIT_MAX CHUNK_LIMIT_MIN chunk_id_format_path.

Lemma file_at_inv w p c : file_at w p = Some c -> exists i, name_at w p = Some (NFile i) /\ nth_error (w_inodes w) i = Some c.
Proof. unfold file_at. destruct (name_at w p) as [[| |i]|]; try discriminate. eauto. Qed.

Lemma reading_open w i c : nth_error (w_inodes w) i = Some c -> reading (add_fd w i) (length (w_fds w)) c.
Proof.
  intros H. exists i, 0, c. cbn. rewrite nth_error_app2, Nat.sub_diag by lia. cbn. split; [reflexivity|].
  split; [exact H|]. split; [lia|]. rewrite dropN_0. reflexivity.
Qed.

Lemma same_add_fd w i : same_files w (add_fd w i). Proof. split; reflexivity. Qed.

(** Opening a chunk file, without faults. *)
Lemma ends_open {A} w root id sfx (k : res nat -> prog A) Q :
  (forall w' r, same_files w w' ->
     match name_at w (chunk_id_format_path root id sfx) with
     | None => r = Err ENOENT
     | Some NDir => r = Err EISDIR
     | Some (NLink _) => r = Err ELOOP
     | Some (NFile i) => exists fd, r = Ok fd /\ forall c, nth_error (w_inodes w) i = Some c -> reading w' fd c
     end -> ends false w' (k r) Q) ->
  ends false w (do r <- chunk_file_open root id sfx ;; k r) Q.
Proof.
  intros H. cbn. split.
  - destruct (name_at w (chunk_id_format_path root id sfx)) as [[| |i]|] eqn:E; do 2 eexists;
      [apply s_open_dir|eapply s_open_link|eapply s_open|apply s_open_noent]; exact E.
  - intros w' r Hs. destruct (sys_open _ _ _ _ _ Hs) as [(Hx & _)|Hr]; [discriminate|].
    destruct (name_at w (chunk_id_format_path root id sfx)) as [[| |i]|]; destruct Hr as [-> ->]; cbn [pbind];
      apply H; try apply same_files_refl; try reflexivity.
    + apply same_add_fd.
    + exists (length (w_fds w)). split; [reflexivity|]. intros c. apply reading_open.
Qed.

Section LOAD.
Variable codecs : ctype -> option codec.
Variable bound : N -> N.

(** What ca_chunk_file_load does once it has opened a file. *)
Definition load_from (fuel fd : nat) (desired fc : chunk_compression) (t : option ctype) : prog (res (list N * chunk_compression)) :=
  try b <- match desired, fc with
           | UNCOMPRESSED, COMPRESSED => load_and_decompress_fd codecs fuel fd []
           | COMPRESSED, UNCOMPRESSED => load_and_compress_fd codecs fuel fd t []
           | _, _ => load_fd fuel fd [] 0
           end ;;
  Ret (Ok (b, if compression_eqb desired AS_IS then fc else desired)).

Definition load_result (w w' : world) (desired : chunk_compression) (p : list N) (r : res (list N * chunk_compression)) : Prop :=
  same_files w w' /\
  exists b e, r = Ok (b, e) /\ represents codecs e b p /\ len b < CHUNK_LIMIT_MAX /\ (desired <> AS_IS -> e = desired).

Lemma load_from_ok fuel fd w desired fc t content p :
  codecs_ok bound codecs -> enough fuel -> reading w fd content ->
  represents codecs fc content p -> len content < CHUNK_LIMIT_MAX -> CHUNK_LIMIT_MIN <= len p < CHUNK_LIMIT_MAX ->
  (desired = COMPRESSED -> fc = UNCOMPRESSED ->
     exists ct cd, t = Some ct /\ codecs ct = Some cd /\ bound (len p) < CHUNK_LIMIT_MAX) ->
  ends false w (load_from fuel fd desired fc t) (fun w' r => load_result w w' desired p r).
Proof.
  intros HC Hf HR Hrep Hl Hp Hct. unfold enough in Hf. unfold load_from.
  assert (ends false w (load_fd fuel fd [] 0) (fun w' r => same_files w w' /\ r = Ok content)) as Hplain.
  { eapply ends_mono; [|apply (load_fd_ok fuel w fd content [] 0 HR); lia]. cbv beta. intros w' r [H1 ->]. split; [exact H1|].
    assert (CHUNK_LIMIT_MIN <= len content).
    { destruct fc; cbn in Hrep; [subst; lia| |contradiction]. destruct Hrep as (ct & cd & _ & _ & Hpk). eapply packed_pos; eauto. }
    replace (0 + len content <? CHUNK_LIMIT_MIN) with false by lia.
    replace (CHUNK_LIMIT_MAX <=? 0 + len content) with false by lia. reflexivity. }
  assert (forall e, represents codecs e content p -> (desired <> AS_IS -> e = desired) ->
    ends false w (try b <- load_fd fuel fd [] 0 ;; Ret (Ok (b, e))) (fun w' r => load_result w w' desired p r)) as Hplain2.
  { intros e He1 He2. apply ends_bind. eapply ends_mono; [|exact Hplain]. cbv beta. intros w' r [H1 ->]. cbn.
    split; [exact H1|]. exists content, e. auto. }
  destruct desired, fc; cbn [compression_eqb]; try (cbn in Hrep; contradiction).
  - apply Hplain2; auto.
  - destruct Hrep as (ct & cd & Hd & Hc & Hpk). apply ends_bind.
    eapply ends_mono; [|apply (load_and_decompress_ok codecs fuel w fd content p ct cd HR Hd Hc Hpk Hp Hl); lia].
    cbv beta. intros w' r [H1 ->]. cbn. split; [exact H1|]. exists p, UNCOMPRESSED. cbn. split; [reflexivity|]. split; [reflexivity|]. split; [lia|auto].
  - destruct (Hct eq_refl eq_refl) as (ct & cd & -> & Hc & Hb). cbn in Hrep. subst content. apply ends_bind.
    eapply ends_mono; [|apply (load_and_compress_ok bound codecs fuel w fd p ct cd HC HR Hc Hp Hb); lia].
    cbv beta. intros w' r [H1 (z & -> & H2 & H3 & H4)]. cbn. split; [exact H1|]. exists z, COMPRESSED. split; [reflexivity|].
    split; [exists ct, cd; auto|]. auto.
  - apply Hplain2; auto.
  - apply Hplain2; [exact Hrep|congruence].
  - apply Hplain2; [exact Hrep|congruence].
Qed.

Lemma holds_forms w root id p : holds codecs w root id p -> forall c, c = UNCOMPRESSED \/ c = COMPRESSED ->
  match name_at w (chunk_name root id c) with
  | None => True
  | Some (NFile i) => exists content, nth_error (w_inodes w) i = Some content /\ represents codecs c content p /\ len content < CHUNK_LIMIT_MAX
  | Some _ => False
  end.
Proof.
  intros [_ H] c Hc. destruct (H c Hc) as [->|(content & H1 & H2)]; [exact I|].
  destruct (file_at_inv _ _ _ H1) as (i & -> & Hi). exists content. auto.
Qed.

Lemma chunk_file_load_ok fuel w root id desired t p :
  codecs_ok bound codecs -> enough fuel -> holds codecs w root id p -> CHUNK_LIMIT_MIN <= len p < CHUNK_LIMIT_MAX ->
  (desired = COMPRESSED -> name_at w (chunk_name root id COMPRESSED) = None ->
     exists ct cd, t = Some ct /\ codecs ct = Some cd /\ bound (len p) < CHUNK_LIMIT_MAX) ->
  ends false w (chunk_file_load codecs fuel root id desired t []) (fun w' r => load_result w w' desired p r).
Proof.
  intros HC Hf Hh Hp Hct. unfold chunk_file_load. pose proof (holds_forms _ _ _ _ Hh) as Hforms.
  assert (forall c, c = UNCOMPRESSED \/ c = COMPRESSED -> forall fd w1, same_files w w1 ->
    (exists i, name_at w (chunk_name root id c) = Some (NFile i) /\ forall content, nth_error (w_inodes w) i = Some content -> reading w1 fd content) ->
    (desired = COMPRESSED -> c = UNCOMPRESSED -> name_at w (chunk_name root id COMPRESSED) = None) ->
    ends false w1 (load_from fuel fd desired c t) (fun w' r => load_result w w' desired p r)) as Hgo.
  { intros c Hc fd w1 Hsm (i & Hi & Hrd) Hx. pose proof (Hforms c Hc) as Hfc. rewrite Hi in Hfc. destruct Hfc as (content & Hn & Hrep & Hl).
    eapply ends_mono; [|apply (load_from_ok fuel fd w1 desired c t content p HC Hf (Hrd _ Hn) Hrep Hl Hp)].
    - cbv beta. intros w' r [H1 H2]. split; [eapply same_files_trans; eauto|exact H2].
    - intros H1 H2. apply Hct; auto. }
  assert (forall c1 c2, (c1 = UNCOMPRESSED /\ c2 = COMPRESSED) \/ (c1 = COMPRESSED /\ c2 = UNCOMPRESSED) ->
    (c1 = UNCOMPRESSED -> desired = UNCOMPRESSED) ->
    (if compression_eqb desired UNCOMPRESSED then UNCOMPRESSED else COMPRESSED) = c1 ->
    (if compression_eqb desired UNCOMPRESSED then COMPRESSED else UNCOMPRESSED) = c2 ->
    let suffix c := if compression_eqb c UNCOMPRESSED then [] else cacnk in
    ends false w
      (do r <- chunk_file_open root id (suffix c1) ;;
       match r with
       | Ok fd => load_from fuel fd desired c1 t
       | Err ELOOP => Ret (Err EADDRNOTAVAIL)
       | Err ENOENT =>
         do r <- chunk_file_open root id (suffix c2) ;;
         match r with
         | Ok fd => load_from fuel fd desired c2 t
         | Err ELOOP => Ret (Err EADDRNOTAVAIL)
         | Err e => Ret (Err e)
         | Abort => Ret Abort
         | UB => Ret UB
         end
       | Err e => Ret (Err e)
       | Abort => Ret Abort
       | UB => Ret UB
       end) (fun w' r => load_result w w' desired p r)) as Hmain.
  { intros c1 c2 H12 Hd _ _ suffix.
    assert (forall c, c = UNCOMPRESSED \/ c = COMPRESSED -> chunk_id_format_path root id (suffix c) = chunk_name root id c) as Hs.
    { intros c [->| ->]; reflexivity. }
    assert (c1 = UNCOMPRESSED \/ c1 = COMPRESSED) as Hc1 by tauto. assert (c2 = UNCOMPRESSED \/ c2 = COMPRESSED) as Hc2 by tauto.
    apply ends_open. intros w1 r1 Hsm1 Hr1. rewrite (Hs c1 Hc1) in Hr1. pose proof (Hforms c1 Hc1) as Hf1.
    destruct (name_at w (chunk_name root id c1)) as [[| |i]|] eqn:E1; try contradiction.
    - destruct Hr1 as (fd & -> & Hrd). apply Hgo; auto. { exists i. auto. } intros -> ->. specialize (Hd eq_refl). discriminate.
    - subst r1. apply ends_open. intros w2 r2 Hsm2 Hr2. rewrite (Hs c2 Hc2) in Hr2. pose proof (Hforms c2 Hc2) as Hf2.
      destruct Hsm1 as [Hn1 Hi1]. unfold name_at in Hr2. rewrite Hn1, Hi1 in Hr2. fold (name_at w (chunk_name root id c2)) in Hr2.
      destruct (name_at w (chunk_name root id c2)) as [[| |i]|] eqn:E2; try contradiction.
      + destruct Hr2 as (fd & -> & Hrd). apply Hgo; auto.
        * eapply same_files_trans; [split; eassumption|exact Hsm2].
        * exists i. auto.
        * intros -> ->. destruct H12 as [[-> Hx]|[-> Hx]]; [discriminate|exact E1].
      + exfalso. destruct Hh as [(c & content & Hx) _]. destruct (file_at_inv _ _ _ Hx) as (i & Hy & _).
        assert (chunk_name root id c = chunk_name root id c1 \/ chunk_name root id c = chunk_name root id c2) as [Hz|Hz].
        { destruct H12 as [[-> ->]|[-> ->]]; destruct c; auto. }
        * rewrite Hz, E1 in Hy. discriminate.
        * rewrite Hz, E2 in Hy. discriminate. }
  destruct desired; cbn [compression_eqb] in *.
  - apply (Hmain UNCOMPRESSED COMPRESSED); auto.
  - apply (Hmain COMPRESSED UNCOMPRESSED); auto; discriminate.
  - apply (Hmain COMPRESSED UNCOMPRESSED); auto; discriminate.
Qed.

End LOAD.

(** ** ca_store_get *)

(** A digest object, once there, has the type that is configured, if one is. *)
Definition store_ok (st : store) : Prop :=
  forall t, st_digest st = Some t -> st_validate st = None \/ st_validate st = Some t.

Lemma dtype_eqb_eq a b : dtype_eqb a b = true <-> a = b.
Proof. destruct a, b; cbn; split; congruence. Qed.

Lemma chunk_id_make_ok digest p : CHUNK_LIMIT_MIN <= len p <= CHUNK_LIMIT_MAX -> chunk_id_make digest p = Ok (digest p).
Proof.
  intros H. unfold chunk_id_make. change CHUNK_LIMIT_MIN with 1 in H. change CHUNK_LIMIT_MAX with 134217728 in H.
  replace (len p <? 1) with false by lia. replace (134217728 <? len p) with false by lia. reflexivity.
Qed.

Lemma chunk_id_make_inv digest p a : chunk_id_make digest p = Ok a -> a = digest p /\ CHUNK_LIMIT_MIN <= len p <= CHUNK_LIMIT_MAX.
Proof.
  unfold chunk_id_make. change CHUNK_LIMIT_MIN with 1. change CHUNK_LIMIT_MAX with 134217728. destruct (len p <? 1) eqn:E1; [discriminate|]. destruct (134217728 <? len p) eqn:E2; [discriminate|].
  intros H. injection H as <-. split; [reflexivity|lia].
Qed.

Lemma try_digests_ok digest old id p t :
  CHUNK_LIMIT_MIN <= len p <= CHUNK_LIMIT_MAX -> digest t p = id -> t <> old ->
  forall ts, In t ts -> exists t', try_digests digest ts old id p = Ok (Some t').
Proof.
  intros Hp Hd Ho. induction ts as [|x ts IH]; intros Hin; [contradiction|]. cbn [try_digests].
  destruct (dtype_eqb x old) eqn:Eo.
  - apply IH. destruct Hin as [->|Hin]; [|exact Hin]. apply dtype_eqb_eq in Eo. congruence.
  - rewrite chunk_id_make_ok by exact Hp. cbn [bind]. unfold chunk_id_equal. destruct (beq id (digest x p)) eqn:Eb; [eauto|].
    apply IH. destruct Hin as [->|Hin]; [|exact Hin]. rewrite Hd, beq_refl in Eb. discriminate.
Qed.

Lemma try_digests_sound digest old id p t ts : try_digests digest ts old id p = Ok (Some t) ->
  digest t p = id /\ CHUNK_LIMIT_MIN <= len p <= CHUNK_LIMIT_MAX.
Proof.
  induction ts as [|x ts IH]; cbn [try_digests]; [discriminate|]. destruct (dtype_eqb x old); [exact IH|].
  destruct (chunk_id_make (digest x) p) eqn:Em; try discriminate. cbn [bind]. apply chunk_id_make_inv in Em.
  unfold chunk_id_equal. destruct (beq id a) eqn:Eb; [|exact IH]. intros H. injection H as <-. apply beq_eq in Eb. destruct Em. split; [congruence|lia].
Qed.

Definition same_but_validate (st st' : store) : Prop := exists t, st' = store_set_validate st t.

Lemma store_validate_ok digest st id p :
  store_ok st -> named digest st id p -> CHUNK_LIMIT_MIN <= len p <= CHUNK_LIMIT_MAX ->
  exists t, store_validate digest st id p = Ok (store_set_validate st t).
Proof.
  intros Hst (t & Hd & Ht) Hp. unfold store_validate. set (vt := match st_validate st with Some t => t | None => _ end).
  rewrite chunk_id_make_ok by exact Hp. cbn [bind]. unfold chunk_id_equal. destruct (beq id (digest vt p)) eqn:Eb; [eauto|].
  destruct (st_digest st) as [t0|] eqn:Ed.
  - exfalso. assert (vt = t) as E.
    { destruct Ht as [Ht|Ht]; [discriminate|]. injection Ht as ->. unfold vt. destruct (Hst t Ed) as [->| ->]; reflexivity. }
    rewrite E, Hd, beq_refl in Eb. discriminate.
  - assert (t <> vt) as Hne. { intros ->. rewrite Hd, beq_refl in Eb. discriminate. }
    destruct (try_digests_ok digest vt id p t Hp Hd Hne all_dtypes) as [t' ->]. { destruct t; cbn; auto. }
    cbn [bind]. eauto.
Qed.

Lemma store_validate_sound digest st id p st' : store_ok st -> store_validate digest st id p = Ok st' ->
  CHUNK_LIMIT_MIN <= len p <= CHUNK_LIMIT_MAX /\
  exists t, st' = store_set_validate st t /\ digest t p = id /\ (st_digest st = None \/ st_digest st = Some t).
Proof.
  intros Hst. unfold store_validate. set (vt := match st_validate st with Some t => t | None => _ end).
  destruct (chunk_id_make (digest vt) p) eqn:Em; try discriminate. cbn [bind]. apply chunk_id_make_inv in Em. destruct Em as [-> Hl].
  unfold chunk_id_equal. destruct (beq id (digest vt p)) eqn:Eb.
  - intros H. injection H as <-. split; [exact Hl|]. exists vt. apply beq_eq in Eb. split; [reflexivity|]. split; [congruence|].
    destruct (st_digest st) as [t|] eqn:Ed; [right|left; reflexivity]. f_equal. unfold vt. destruct (Hst t Ed) as [->| ->]; reflexivity.
  - destruct (st_digest st) eqn:Ed; [discriminate|]. destruct (try_digests digest all_dtypes vt id p) as [[t|]| | |] eqn:Et; try discriminate.
    cbn [bind]. intros H. injection H as <-. apply try_digests_sound in Et. destruct Et. split; [lia|]. exists t. auto.
Qed.

Definition get_result (codecs : ctype -> option codec) (w w' : world) (st : store) (desired : chunk_compression) (p : list N)
  (r : res (store * list N * chunk_compression)) : Prop :=
  same_files w w' /\
  exists t b e, r = Ok (store_count (store_set_validate st t) b, b, e) /\ represents codecs e b p /\ (desired <> AS_IS -> e = desired).

Lemma store_get_ok codecs bound digest fuel w st root id desired p :
  codecs_ok bound codecs -> enough fuel -> store_ok st -> st_root st = Some root ->
  holds codecs w root id p -> named digest st id p -> CHUNK_LIMIT_MIN <= len p < CHUNK_LIMIT_MAX ->
  (desired = COMPRESSED -> name_at w (chunk_name root id COMPRESSED) = None ->
     exists ct cd, st_ctype st = Some ct /\ codecs ct = Some cd /\ bound (len p) < CHUNK_LIMIT_MAX) ->
  ends false w (store_get codecs digest fuel st id desired) (fun w' r => get_result codecs w w' st desired p r).
Proof.
  intros HC Hf Hst Hroot Hh Hnm Hp Hct. unfold store_get. rewrite Hroot. apply ends_bind.
  eapply ends_mono; [|apply (chunk_file_load_ok codecs bound fuel w root id desired (st_ctype st) p HC Hf Hh Hp Hct)].
  cbv beta. intros w' r (Hsm & b & e & -> & Hrep & Hl & He).
  destruct (store_validate_ok digest st id p Hst Hnm) as [t Hv]; [lia|].
  destruct e; cbn [compression_eqb]; cbn in Hrep.
  - subst b. cbn. rewrite Hv. cbn. split; [exact Hsm|]. exists t, p, UNCOMPRESSED. cbn. auto.
  - destruct Hrep as (ct & cd & H1 & H2 & H3).
    rewrite (decompress_ok codecs fuel b p ct cd H1 H2 H3) by (unfold enough in Hf; lia).
    cbn. rewrite Hv. cbn. split; [exact Hsm|]. exists t, b, COMPRESSED. split; [reflexivity|]. split; [exists ct, cd; auto|exact He].
  - contradiction.
Qed.

Lemma load_effective codecs fuel root id desired t b e :
  may (chunk_file_load codecs fuel root id desired t []) (Ok (b, e)) ->
  e <> AS_IS /\ (desired <> AS_IS -> e = desired).
Proof.
  unfold chunk_file_load. intros H.
  assert (forall fd fc, fc <> AS_IS -> may (load_from codecs fuel fd desired fc t) (Ok (b, e)) ->
    e <> AS_IS /\ (desired <> AS_IS -> e = desired)) as Hgo.
  { intros fd fc Hfc Hx. unfold load_from, ptry in Hx. apply may_bind in Hx. destruct Hx as (a & _ & Hx).
    destruct a; inversion Hx; subst. destruct desired; cbn; split; congruence. }
  apply may_bind in H. destruct H as (r1 & _ & H). destruct r1 as [fd|er| |].
  - eapply Hgo; [|exact H]. destruct desired; discriminate.
  - destruct er; try (inversion H; fail). apply may_bind in H. destruct H as (r2 & _ & H). destruct r2 as [fd|er| |].
    + eapply Hgo; [|exact H]. destruct desired; discriminate.
    + destruct er; inversion H.
    + inversion H.
    + inversion H.
  - inversion H.
  - inversion H.
Qed.

(** C24, whatever is in the file system, whatever others do to it meanwhile and whatever goes wrong. *)
Lemma store_get_sound codecs digest fuel st id desired st' b e :
  store_ok st -> may (store_get codecs digest fuel st id desired) (Ok (st', b, e)) ->
  (desired <> AS_IS -> e = desired) /\ store_ok st' /\
  exists p t,
    match e with
    | UNCOMPRESSED => b = p
    | COMPRESSED => exists ct cd, detect_compression b = Ok ct /\ codecs ct = Some cd /\ inflates cd (dec_new cd) b p
    | AS_IS => False
    end /\
    digest t p = id /\ (st_digest st = None \/ st_digest st = Some t) /\ CHUNK_LIMIT_MIN <= len p <= CHUNK_LIMIT_MAX.
Proof.
  intros Hst H. unfold store_get in H. destruct (st_root st) as [root|]; [|inversion H].
  apply may_bind in H. destruct H as (r1 & H1 & H). destruct r1 as [[buf eff]|er| |]; try (inversion H; fail).
  apply load_effective in H1. destruct H1 as [He1 He2].
  apply may_bind in H. destruct H as (r2 & H2 & H). destruct r2 as [v|er| |]; try (inversion H; fail).
  destruct (store_validate digest st id v) as [st2|er| |] eqn:Ev; try (inversion H; fail).
  apply store_validate_sound in Ev; [|exact Hst]. destruct Ev as (Hl & t & -> & Hd & Ht). inversion H; subst. clear H.
  split; [exact He2|]. split. { intros t1 Ht1. cbn in Ht1 |- *. right. destruct Ht as [Ht|Ht]; congruence. }
  exists v, t. split; [|auto]. destruct e; cbn [compression_eqb] in H2.
  - inversion H2; reflexivity.
  - unfold plift in H2. destruct (decompress codecs fuel b []) as [r|] eqn:Ed; [|inversion H2]. inversion H2; subst.
    unfold decompress in Ed. destruct (bad_size b); [discriminate|].
    destruct (detect_all b) as [ct| | |] eqn:Ea; cbn [bind] in Ed; try discriminate. unfold start_codec in Ed.
    destruct (codecs ct) as [cd|] eqn:Ec; [|discriminate].
    destruct (decompress_loop_inflates _ _ _ _ _ _ _ Ed) as (p & -> & Hi & _). exists ct, cd. split; [|auto].
    unfold detect_all in Ea. destruct (detect_compression b) as [|[] | |]; congruence.
  - congruence.
Qed.
