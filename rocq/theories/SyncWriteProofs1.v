(** Reading a blob through its index: what is handed out is right. *)
From Verif Require Import Base Chunker ChunkId FeatureFlags Posix ChunkFile Store StoreSpec StoreProofs1 Index IndexSpec IndexProofs IndexProofs2 IndexProofs5 SyncGet SyncGetSpec SyncGetProofs4 SyncWrite SyncWriteSpec.
From Verif Require Properties_Index Properties_SyncGet.
Local Open Scope N_scope.

(** ** The handles stay usable *)
Lemma remote_request_keeps codecs digest fuel r id high desired r' o : may (remote_request codecs digest fuel r id high desired) (r', o) ->
  rm_digest r' = rm_digest r /\ rm_validate r' = rm_validate r.
Proof.
  unfold remote_request. intros H.
  assert (forall q, rm_digest (rm_with r q) = rm_digest r /\ rm_validate (rm_with r q) = rm_validate r) as K by (intros; split; reflexivity).
  destruct (negb (rm_pull r)); [inversion H; subst; auto|]. destruct (rm_eof r); [inversion H; subst; auto|].
  apply may_bind in H. destruct H as ([q o1] & _ & H). cbv zeta in H.
  destruct o1; try (inversion H; subst; apply K).
  apply may_bind in H. destruct H as (o1 & _ & H).
  destruct o1 as [[buf e]|er| |]; [| |inversion H; subst; apply K|inversion H; subst; apply K].
  - destruct ((len buf <? CHUNK_LIMIT_MIN) || (CHUNK_LIMIT_MAX <? len buf)); [inversion H; subst; apply K|].
    apply may_bind in H. destruct H as (v & _ & H). destruct v; try (inversion H; subst; apply K).
    destruct (remote_validate digest (rm_with r q) id a0); inversion H; subst; apply K.
  - destruct er; try (inversion H; subst; apply K).
    apply may_bind in H. destruct H as ([q' o2] & _ & H). destruct o2 as [[]| | |]; inversion H; subst; apply K.
Qed.

Lemma get_remotes_keeps codecs digest fuel id desired : forall rs rs' o, may (get_remotes codecs digest fuel rs id desired) (rs', o) ->
  forall r', In r' rs' -> exists r, In r rs /\ rm_digest r' = rm_digest r /\ rm_validate r' = rm_validate r.
Proof.
  induction rs as [|r rs IH]; cbn; intros rs' o H.
  - inversion H; subst. intros r' [].
  - apply may_bind in H. destruct H as ([r1 o1] & H1 & H). apply remote_request_keeps in H1.
    assert (forall (x : option (res (list N * chunk_compression))), may (Ret (r1 :: rs, x)) (rs', o) -> forall r', In r' rs' -> exists r0, (r = r0 \/ In r0 rs) /\ rm_digest r' = rm_digest r0 /\ rm_validate r' = rm_validate r0) as K.
    { intros x G. inversion G; subst. intros r' [<-|I]; [exists r; auto|exists r'; auto]. }
    destruct o1 as [|er| |]; try (eapply K; exact H). destruct er; try (eapply K; exact H).
    apply may_bind in H. destruct H as ([rs1 o2] & G2 & H). inversion H; subst. intros r' [<-|I]; [exists r; auto|].
    destruct (IH _ _ G2 _ I) as (r0 & I0 & E). exists r0. auto.
Qed.

Lemma sync_get_keeps codecs digest vtd fuel s id desired s' o : usable codecs digest vtd fuel s -> may (sync_get codecs digest fuel s id desired) (s', o) -> usable codecs digest vtd fuel s'.
Proof.
  intros U H. unfold sync_get in H. apply may_bind in H. destruct H as (r & _ & H).
  assert (forall sx, sy_seeds sx = sy_seeds s -> sy_wstore sx = sy_wstore s -> sy_cache_store sx = sy_cache_store s -> sy_rstores sx = sy_rstores s ->
    (forall r', In r' (opt (sy_remote_wstore sx) ++ sy_remote_rstores sx) -> exists r0, In r0 (opt (sy_remote_wstore s) ++ sy_remote_rstores s) /\ rm_digest r' = rm_digest r0 /\ rm_validate r' = rm_validate r0) ->
    usable codecs digest vtd fuel sx) as K.
  { intros sx E1 E2 E3 E4 E5. destruct U as [U1 U2].
    assert (forall a b, In (FromStore a) (map FromRemote b) -> False) as F1 by (intros a b I; apply in_map_iff in I; destruct I as (x & I & _); discriminate I).
    assert (forall a b, In (FromRemote a) (map FromRemote b) -> In a b) as F2 by (intros a b I; apply in_map_iff in I; destruct I as (x & I & I'); inversion I; subst; exact I').
    split.
    - intros st I. apply U1. unfold sources, local_sources in I |- *. rewrite E1, E2, E3, E4 in I. rewrite !in_app_iff in *. destruct I as [I|[I|I]]; [left; exact I|exfalso; eapply F1; exact I|exfalso; eapply F1; exact I].
    - intros r' I. assert (In r' (opt (sy_remote_wstore sx) ++ sy_remote_rstores sx)) as I'.
      { unfold sources, local_sources in I. rewrite !in_app_iff in I. destruct I as [[I|[I|[I|I]]]|[I|I]]; try (apply in_map_iff in I; destruct I as (x & I & _); discriminate I); apply F2 in I; apply in_or_app; auto. }
      destruct (E5 r' I') as (r0 & I0 & D1 & D2). specialize (U2 r0). assert (remote_handle r0) as R0.
      { apply U2. unfold sources. apply in_or_app. right. apply in_app_iff in I0. apply in_or_app. destruct I0 as [I0|I0]; [left|right]; apply in_map; exact I0. }
      unfold remote_handle in *. rewrite D1, D2. exact R0. }
  assert (usable codecs digest vtd fuel s) as U' by exact U.
  destruct r as [|er| |]; try (inversion H; subst; exact U). destruct er; try (inversion H; subst; exact U).
  apply may_bind in H. destruct H as ([rw o1] & H1 & H). pose proof (get_remotes_keeps _ _ _ _ _ _ _ _ H1) as K1. rewrite maybe_opt in K1.
  assert (forall r', In r' (opt (match rw with r :: _ => Some r | [] => None end)) -> exists r0, In r0 (opt (sy_remote_wstore s)) /\ rm_digest r' = rm_digest r0 /\ rm_validate r' = rm_validate r0) as K1'.
  { intros r' I. apply K1. destruct rw; cbn in I; [contradiction|]. destruct I as [<-|[]]. left. reflexivity. }
  destruct o1.
  - inversion H; subst. apply K; try reflexivity. cbn. intros r' I. apply in_app_iff in I. destruct I as [I|I].
    + destruct (K1' _ I) as (r0 & I0 & E). exists r0. split; [apply in_or_app; auto|exact E].
    + exists r'. split; [apply in_or_app; auto|auto].
  - apply may_bind in H. destruct H as ([rs o2] & G2 & H). pose proof (get_remotes_keeps _ _ _ _ _ _ _ _ G2) as K2.
    assert (s' = with_rremotes (with_wremote s rw) rs) as -> by (destruct o2; inversion H; reflexivity).
    apply K; try reflexivity. cbn. intros r' I. apply in_app_iff in I. destruct I as [I|I].
    + destruct (K1' _ I) as (r0 & I0 & E). exists r0. split; [apply in_or_app; auto|exact E].
    + destruct (K2 _ I) as (r0 & I0 & E). exists r0. split; [apply in_or_app; right; exact I0|exact E].
Qed.

(** ** The listing of a blob *)
Lemma listing_app dg a b : listing dg (a ++ b) = listing dg a ++ listing dg b.
Proof. apply map_app. Qed.
Lemma listing_size dg cs : blob_size_of (listing dg cs) = len (concat cs).
Proof. induction cs as [|c cs IH]; [reflexivity|]. change (len c + blob_size_of (listing dg cs) = len (c ++ concat cs)). rewrite IH, len_app. reflexivity. Qed.
Lemma listing_len dg cs : len (listing dg cs) = len cs.
Proof. unfold len, listing. rewrite map_length. reflexivity. Qed.
Lemma listing_cut dg : forall cs pre x post, listing dg cs = pre ++ x :: post -> exists pre' c post', cs = pre' ++ c :: post' /\ pre = listing dg pre' /\ x = (dg c, len c) /\ post = listing dg post'.
Proof.
  induction cs as [|c cs IH]; cbn; intros pre x post E; [destruct pre; discriminate E|].
  destruct pre as [|y pre]; cbn in E; injection E as E1 E2.
  - exists [], c, cs. cbn. subst. auto.
  - destruct (IH _ _ _ E2) as (pre' & c' & post' & -> & -> & -> & ->). exists (c :: pre'), c', post'. subst. auto.
Qed.
Lemma listing_cut_nil dg : forall cs pre post, listing dg cs = pre ++ post -> exists pre' post', cs = pre' ++ post' /\ pre = listing dg pre' /\ post = listing dg post'.
Proof.
  intros cs pre post E. destruct post as [|x post].
  - exists cs, []. rewrite app_nil_r in *. auto.
  - destruct (listing_cut _ _ _ _ _ E) as (a & c & b & -> & -> & -> & ->). exists a, (c :: b). auto.
Qed.

Section Read.
Context (codecs : ctype -> option codec) (bound : N -> N) (HC : codecs_ok bound codecs) (digest : dtype -> list N -> list N) (vtd : list N) (fuel : nat).
Context (f mi av ma : N) (d : dtype) (cs : list (list N)).
Let l := listing (digest d) cs.
Let data := index_image f mi av ma l.
Context (P : params_ok f mi av ma) (C : chunks_ok ma l) (B : len l < 2 ^ 34).

(** Where the reader is. *)
Definition index_at (pre : list (list N)) (x : idx) : Prop :=
  attached f mi av ma l x /\ IndexProofs.reading data ma (len pre) (len (concat pre)) x /\ exists post, cs = pre ++ post.
Definition index_done (x : idx) : Prop := attached f mi av ma l x /\ len data <= x_fpos x.

Lemma att_upd_file x dd n : attached f mi av ma l x -> dd = x_data x -> attached f mi av ma l (upd_file dd n x).
Proof. intros [A1 A2 A3 A4 A5 A6 A7 A8 A9] ->. destruct x; cbn in *. split; assumption. Qed.

Lemma index_next pre c post x : cs = pre ++ c :: post -> index_at pre x ->
  exists x', index_read_chunk x = (Ok (Some (digest d c, len (concat pre) + len c, len c)), x') /\ index_at (pre ++ [c]) x'.
Proof.
  intros E (A & R & _). assert (l = listing (digest d) pre ++ (digest d c, len c) :: listing (digest d) post) as EL by (unfold l; rewrite E, listing_app; reflexivity).
  destruct (entry_bytes f mi av ma l C B _ _ _ _ EL) as (rest & E1 & E2 & E3 & E4 & _). fold data in E1.
  rewrite listing_len, listing_size in *. pose proof (blob_lt ma l C) as BL. unfold l in E4, BL. rewrite listing_size in E4, BL.
  destruct (reading_next data ma (len pre) (len (concat pre)) x _ _ _ R E1 E2) as (x' & X1 & X2 & X3 & X4 & X5 & X6); try (unfold UINT64_MAX, two64 in *; lia).
  exists x'. replace (len (concat pre) + len c - len (concat pre)) with (len c) in X1 by lia. split; [exact X1|].
  assert (concat (pre ++ [c]) = concat pre ++ c) as EC by (rewrite concat_app; cbn; rewrite app_nil_r; reflexivity).
  split; [|split].
  - apply (att_reading f mi av ma l x' _ _ X2); [rewrite X3; apply A|rewrite X4; apply A|rewrite X5; apply A|rewrite X6; apply A].
  - rewrite EC, !len_app. change (len [c]) with 1. exact X2.
  - exists post. rewrite <- app_assoc. exact E.
Qed.

Lemma index_end x : index_at cs x -> exists x', index_read_chunk x = (Ok None, x') /\ index_done x'.
Proof.
  intros (A & R & _). pose proof (tail_at f mi av ma l C) as T. fold data in T. pose proof (tail_size_ok l B) as T2.
  pose proof (reading_read _ _ _ _ _ R) as X. cbv zeta in X. assert (len cs = len l) as EL by (unfold l; rewrite listing_len; reflexivity). rewrite EL in *.
  assert (len data = 104 + 40 * len l) as DL by (apply image_len; apply C).
  assert (file_pread data (64 + 40 * len l) 40 = tail_of (16 + 40 * (len l + 1))) as FB by (unfold file_pread; rewrite T; reflexivity).
  rewrite FB in X. change (len (tail_of (16 + 40 * (len l + 1))) =? 40) with true in X. cbv iota in X.
  unfold entry_result in X. destruct R as (R1 & R2 & R3 & R4 & R5 & R6 & R7 & R8 & R9). rewrite R6, R7, R2, R5 in X.
  assert (tail_test (tail_of (16 + 40 * (len l + 1))) (64 + 40 * len l - 64 + 56) = true) as TT.
  { apply tail_test_spec; [reflexivity|unfold tail_of; unfold le64; rewrite !bytes_ok_app, !le_enc_ok; reflexivity|].
    replace (64 + 40 * len l - 64 + 56) with (16 + 40 * (len l + 1)) by lia. split; [clear -T2; unfold two64 in *; lia|reflexivity]. }
  rewrite TT in X. assert (file_pread data (64 + 40 * len l + 40) 1 = []) as FN by (unfold file_pread; rewrite dropN_all by lia; reflexivity). rewrite FN in X.
  change (len (@nil N) =? 0) with true in X. cbv iota in X. eexists. split; [exact X|]. split.
  - apply att_upd_file; [exact A|symmetry; exact R5].
  - destruct x; cbn in *. lia.
Qed.

Lemma index_over x : index_done x -> exists x', index_read_chunk x = (Err EPIPE, x').
Proof.
  intros (A & L). assert (AO := A). destruct A as [A1 A2 A3 A4 A5 A6 A7 A8 A9].
  pose proof (read_chunk_eq x A1) as X. rewrite A2, A3 in X. specialize (X ltac:(discriminate) eq_refl (enough_read _ _ A3)). cbv zeta in X.
  assert (file_pread (x_data x) (x_fpos x) 40 = []) as E by (unfold file_pread; rewrite A8; fold data; rewrite dropN_all by exact L; reflexivity).
  rewrite E in X. change (len (@nil N) =? 40) with false in X. cbv iota in X. eexists. exact X.
Qed.

(** The state of a reader at position [pos] in the blob. *)
Definition rinv (pos : N) (rd : reader) : Prop :=
  usable codecs digest vtd fuel (rd_sync rd) /\ rd_skip rd < two64 /\
  ((exists pre, rd_next rd = None /\ index_at pre (rd_index rd) /\ pos = len (concat pre) + rd_skip rd) \/
   (exists pre c post, rd_next rd = Some (digest d c, len c) /\ cs = pre ++ c :: post /\ index_at (pre ++ [c]) (rd_index rd) /\ pos = len (concat pre) + rd_skip rd) \/
   (rd_next rd = None /\ index_done (rd_index rd))).

(** The end was reached, or the position is known. *)
Definition at_end (rd : reader) : Prop := rd_next rd = None /\ index_done (rd_index rd).

Lemma small_chunk c : In c cs -> 0 < len c /\ len c <= ma /\ ma < UINT64_MAX.
Proof.
  intros I. destruct C as [C1 _]. rewrite Forall_forall in C1. specialize (C1 (digest d c, len c)). destruct C1 as (_ & _ & C1).
  - unfold l, listing. apply in_map_iff. exists c. auto.
  - cbn in C1. destruct P as (_ & _ & _ & _ & P5). unfold UINT64_MAX. lia.
Qed.

Lemma next_loop_ok n : forall pos rd rd' r, rinv pos rd -> ~ at_end rd -> next_loop n rd = (rd', r) ->
  match r with
  | Ok None => rinv pos rd' /\ exists pre c post, rd_next rd' = Some (digest d c, len c) /\ cs = pre ++ c :: post /\ rd_skip rd' < len c /\
                 pos = len (concat pre) + rd_skip rd' /\ index_at (pre ++ [c]) (rd_index rd')
  | Ok (Some FEof) => rinv pos rd' /\ len (concat cs) <= pos
  | Ok (Some _) => False
  | _ => True
  end.
Proof.
  induction n as [|n IH]; intros pos rd rd' r I NE H; cbn [next_loop] in H; [inversion H; exact Logic.I|].
  (* reading the next entry *)
  assert (forall rd0 pre, usable codecs digest vtd fuel (rd_sync rd0) -> rd_skip rd0 < two64 -> index_at pre (rd_index rd0) -> pos = len (concat pre) + rd_skip rd0 ->
    match Index.index_read_chunk (rd_index rd0) with
      | (Err EAGAIN, x) => (mkReader x (rd_sync rd0) None (rd_skip rd0), Ok (Some FPoll))
      | (Ok None, x) => (mkReader x (rd_sync rd0) None (rd_skip rd0), Ok (Some FEof))
      | (Ok (Some (id, _, size)), x) =>
        if size =? UINT64_MAX then (mkReader x (rd_sync rd0) None (rd_skip rd0), Err ESPIPE)
        else next_loop n (mkReader x (rd_sync rd0) (Some (id, size)) (rd_skip rd0))
      | (Err e, x) => (mkReader x (rd_sync rd0) None (rd_skip rd0), Err e)
      | (Abort, x) => (mkReader x (rd_sync rd0) None (rd_skip rd0), Abort)
      | (UB, x) => (mkReader x (rd_sync rd0) None (rd_skip rd0), UB)
      end = (rd', r) ->
   match r with
  | Ok None => rinv pos rd' /\ exists pre c post, rd_next rd' = Some (digest d c, len c) /\ cs = pre ++ c :: post /\ rd_skip rd' < len c /\
                 pos = len (concat pre) + rd_skip rd' /\ index_at (pre ++ [c]) (rd_index rd')
  | Ok (Some FEof) => rinv pos rd' /\ len (concat cs) <= pos
  | Ok (Some _) => False
  | _ => True
  end) as K.
  { clear I NE H rd. intros rd pre U S A EP H. pose proof A as (_ & _ & (post & EC)). destruct post as [|c post].
    - rewrite app_nil_r in EC. rewrite <- EC in A. destruct (index_end _ A) as (x' & X1 & X2). rewrite X1 in H. inversion H; subst rd' r.
      split; [|rewrite EC; lia]. split; [exact U|]. split; [exact S|]. right. right. split; [reflexivity|exact X2].
    - destruct (index_next pre c post _ EC A) as (x' & X1 & X2). rewrite X1 in H.
      destruct (small_chunk c) as (S1 & S2 & S3); [rewrite EC; apply in_or_app; right; left; reflexivity|].
      replace (len c =? UINT64_MAX) with false in H by (symmetry; apply N.eqb_neq; lia).
      apply (IH pos) in H; [exact H| |intros (E & _); discriminate E].
      split; [exact U|]. split; [exact S|]. right. left. exists pre, c, post. cbn. auto. }
  destruct I as (U & S & I). destruct (rd_next rd) as [[id size]|] eqn:EN.
  - destruct I as [(pre & E & _)|[(pre & c & post & E & EC & A & EP)|(E & _)]]; try congruence. inversion E; subst id size.
    destruct (N.ltb_spec (rd_skip rd) (len c)) as [L|L].
    + inversion H; subst rd' r. split; [split; [exact U|split; [exact S|right; left; exists pre, c, post; auto]]|]. exists pre, c, post. auto.
    + apply (K _ (pre ++ [c])) in H; [exact H|exact U|cbn; lia|exact A|]. cbn [rd_skip]. rewrite concat_app, len_app. cbn [concat]. rewrite app_nil_r. lia.
  - destruct I as [(pre & _ & A & EP)|[(pre & c & post & E & _)|(E & D)]]; try congruence.
    + apply (K rd pre) in H; auto.
    + exfalso. apply NE. split; assumption.
Qed.

Lemma next_loop_end n rd rd' r : at_end rd -> next_loop n rd = (rd', r) -> r = Abort \/ r = Err EPIPE.
Proof.
  intros (E & D) H. destruct n as [|n]; cbn [next_loop] in H; [inversion H; auto|]. rewrite E in H. destruct (index_over _ D) as (x' & X). rewrite X in H. inversion H. auto.
Qed.

Lemma at_end_dec pos rd : rinv pos rd -> at_end rd \/ ~ at_end rd.
Proof.
  intros (_ & _ & I). destruct I as [(pre & E & (A & R & (post & EC)) & _)|[(pre & c & post & E & _)|D]].
  - right. intros (_ & _ & D). destruct R as (_ & _ & _ & _ & _ & _ & R & _). rewrite R in D.
    assert (len data = 104 + 40 * len l) as DL by (apply image_len; apply C). assert (len l = len cs) as EL by (unfold l; rewrite listing_len; reflexivity).
    rewrite EC, len_app in EL. lia.
  - right. intros (E' & _). congruence.
  - left. exact D.
Qed.

Lemma rinv_any pos pos' rd : at_end rd -> rinv pos rd -> rinv pos' rd.
Proof. intros D (U & S & _). split; [exact U|]. split; [exact S|]. right. right. exact D. Qed.

Lemma request_ok pos rd ready rd' r : rinv pos rd -> may (decoder_request codecs digest fuel ready rd) (rd', r) ->
  match r with
  | Ok (FData x) => piece digest d cs pos x /\ rinv (pos + len x) rd'
  | Ok FEof => len (concat cs) <= pos /\ rinv pos rd'
  | Ok _ => rinv pos rd'
  | _ => True
  end.
Proof.
  intros I H. unfold decoder_request in H. destruct (next_loop (rounds (rd_index rd)) rd) as [rd1 r1] eqn:NL.
  destruct (at_end_dec _ _ I) as [D|D].
  { destruct (next_loop_end _ _ _ _ D NL); subst r1; inversion H; exact Logic.I. }
  pose proof (next_loop_ok _ _ _ _ _ I D NL) as K.
  destruct r1 as [[[]|]|e| |]; try contradiction; try (inversion H; subst; exact Logic.I).
  - inversion H; subst. destruct K; auto.
  - destruct K as (I1 & pre & c & post & E & EC & LT & EP & A). rewrite E in H.
    destruct ready; cbn [negb] in H; [|inversion H; subst; exact I1].
    apply may_bind in H. destruct H as ([sy o] & H1 & H). destruct I1 as (U & S & _).
    pose proof (sync_get_keeps _ _ vtd _ _ _ _ _ _ U H1) as U'.
    assert (rinv pos (mkReader (rd_index rd1) sy (Some (digest d c, len c)) (rd_skip rd1))) as IE.
    { split; [exact U'|]. split; [exact S|]. right. left. exists pre, c, post. cbn. auto. }
    destruct o as [[p e]|e| |]; [| destruct e; inversion H; subst; try exact Logic.I; exact IE|inversion H; exact Logic.I|inversion H; exact Logic.I].
    destruct (Properties_SyncGet.sync_get_genuine codecs bound digest vtd fuel _ _ _ _ _ _ HC U H1) as (x & p0 & _ & De & St & (t & Dt & _) & _).
    rewrite (De ltac:(discriminate)) in St. cbn in St. subst p0.
    destruct (small_chunk c) as (S1 & S2 & S3); [rewrite EC; apply in_or_app; right; left; reflexivity|].
    replace (len c =? UINT64_MAX) with false in H by (symmetry; apply N.eqb_neq; lia). cbn [negb andb] in H.
    destruct (N.eqb_spec (len c) (len p)) as [EL|NL']; cbn [negb] in H; [|inversion H; exact Logic.I]. cbn [rd_skip rd_index] in H.
    assert (concat (pre ++ [c]) = concat pre ++ c) as EC2 by (rewrite concat_app; cbn; rewrite app_nil_r; reflexivity).
    destruct (N.ltb_spec 0 (rd_skip rd1)) as [Z|Z].
    + destruct (N.leb_spec (len p) (rd_skip rd1)) as [Z2|Z2]; [inversion H; exact Logic.I|]. inversion H; subst rd' r. split.
      * exists pre, c, post, (rd_skip rd1), p, t. repeat split; auto.
      * split; [exact U'|]. split; [cbn; unfold two64; lia|]. left. exists (pre ++ [c]). cbn. split; [reflexivity|]. split; [exact A|].
        rewrite EC2, len_app, len_dropN. lia.
    + assert (rd_skip rd1 = 0) as Z0 by lia. inversion H; subst rd' r. split.
      * exists pre, c, post, 0, p, t. rewrite Z0 in EP. repeat split; auto.
      * split; [exact U'|]. split; [cbn; lia|]. left. exists (pre ++ [c]). cbn. split; [reflexivity|]. split; [exact A|]. rewrite EC2, len_app. lia.
Qed.

Lemma skip_ok pos rd n rd' r : n < two64 -> rinv pos rd -> decoder_skip n rd = (rd', r) -> match r with Ok _ => rinv (pos + n) rd' | _ => True end.
Proof.
  intros L (U & S & I) H. unfold decoder_skip in H. destruct (N.ltb_spec ((rd_skip rd + n) mod two64) (rd_skip rd)) as [Z|Z]; inversion H; subst; [exact Logic.I|].
  assert ((rd_skip rd + n) mod two64 = rd_skip rd + n) as E.
  { destruct (N.lt_ge_cases (rd_skip rd + n) two64) as [G|G]; [apply N.mod_small; exact G|].
    exfalso. replace (rd_skip rd + n) with ((rd_skip rd + n - two64) + 1 * two64) in Z by lia. rewrite N.mod_add in Z by discriminate. rewrite N.mod_small in Z by lia. lia. }
  split; [exact U|]. split; [cbn [rd_skip]; apply N.mod_lt; discriminate|]. cbn [rd_skip rd_next rd_index].
  destruct I as [(pre & E1 & A & EP)|[(pre & c & post & E1 & EC & A & EP)|D]].
  - left. exists pre. rewrite E. repeat split; try assumption; try apply A. lia.
  - right. left. exists pre, c, post. rewrite E. repeat split; try assumption; try apply A. lia.
  - right. right. exact D.
Qed.

Lemma seek_ok' pos rd o rd' r : (forall pre c post, cs = pre ++ c :: post -> post <> [] -> mi <= len c) -> rinv pos rd -> decoder_seek o rd = (rd', r) ->
  match r with Ok _ => o < len (concat cs) /\ rinv o rd' | _ => True end.
Proof.
  intros M (U & S & I) H. unfold decoder_seek in H.
  assert (attached f mi av ma l (rd_index rd)) as A by (destruct I as [(pre & _ & (A & _) & _)|[(pre & c & post & _ & _ & (A & _) & _)|(_ & A & _)]]; exact A).
  assert (min_respected mi l) as MR.
  { intros pre id sz post E NE. destruct (listing_cut _ _ _ _ _ E) as (a & c & b & EC & -> & Ex & ->). inversion Ex; subst. eapply M; [exact EC|]. intros ->. apply NE. reflexivity. }
  destruct (IndexProofs5.seek_ok f mi av ma l C B (rd_index rd) o A MR) as (r1 & x' & X1 & X2 & X3). rewrite X1 in H.
  assert (blob_size_of l = len (concat cs)) as EB by apply listing_size. rewrite EB in X3.
  destruct (N.ltb_spec o (len (concat cs))) as [Z|Z]; [|subst r1; inversion H; exact Logic.I].
  destruct X3 as (skip & -> & pre & id & sz & post & E1 & E2 & E3 & E4 & _). inversion H; subst rd' r. split; [exact Z|].
  destruct (listing_cut _ _ _ _ _ E1) as (a & c & b & EC & -> & Ex & ->). inversion Ex; subst id sz. rewrite listing_size in *. rewrite listing_len in E4.
  pose proof (blob_lt ma l C) as BL. rewrite EB in BL.
  split; [exact U|]. split; [cbn; unfold UINT64_MAX, two64 in *; lia|]. left. exists a. cbn. split; [reflexivity|]. split; [|lia].
  split; [exact X2|]. split; [exact E4|]. exists (c :: b). exact EC.
Qed.

Lemma session_ok tr : forall pos rd, rinv pos rd ->
  (In true (map (fun x => match fst x with ASeek _ => true | _ => false end) tr) -> forall pre c post, cs = pre ++ c :: post -> post <> [] -> mi <= len c) ->
  session codecs digest fuel rd tr -> right digest d cs pos tr.
Proof.
  induction tr as [|[a r] tr IH]; intros pos rd I M H; [exact Logic.I|]. inversion H as [|rd0 a0 rd' r0 tr0 HA HS]; subst.
  assert (forall pos', rinv pos' rd' -> right digest d cs pos' tr) as K by (intros pos' I'; apply (IH pos' rd' I'); [intros Z; apply M; cbn; right; exact Z|exact HS]).
  destruct HA as [ready rd rd' r HM|o rd rd' r HK|n rd rd' r L HK]; cbn [right].
  - pose proof (request_ok _ _ _ _ _ I HM) as Q. destruct r as [[]|e| |]; try exact Logic.I; try (apply K; exact Q); destruct Q; split; auto.
  - pose proof (seek_ok' _ _ _ _ _ (M (or_introl eq_refl)) I HK) as Q. destruct r as [x|e| |]; try exact Logic.I. destruct Q. split; auto.
  - pose proof (skip_ok _ _ _ _ _ L I HK) as Q. destruct r as [x|e| |]; try exact Logic.I. apply K. exact Q.
Qed.

(** The reader at the start. *)
Lemma start_rinv s lim : usable codecs digest vtd fuel s -> exists x, index_open (index_new CA_INDEX_READ (Some data) lim) = (Ok tt, x) /\ rinv 0 (mkReader x s None 0) /\ x_data x = data /\ index_at [] x.
Proof.
  intros U. pose proof (proj2 (open_read_ok data lim (opened f mi av ma data lim) (image_ok f mi av ma l (proj1 C)))) as O.
  exists (opened f mi av ma data lim). assert (index_at [] (opened f mi av ma data lim)) as A.
  { split; [apply opened_attached|]. split; [apply opened_reading|exists cs; reflexivity]. }
  split; [apply O; exists f, mi, av, ma, (image_entries 0 l ++ tail_of (16 + 40 * (len l + 1))); repeat split; try apply P; unfold data; apply image_split|].
  split; [|split; [reflexivity|exact A]]. split; [exact U|]. split; [cbn; unfold two64; lia|]. left. exists []. cbn. repeat split; try apply A.
Qed.
End Read.
