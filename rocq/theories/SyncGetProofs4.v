(** C35: what is delivered, and which place it comes from. *)
From Verif Require Import Base Locator ChunkId Posix PosixProofs ChunkFile Location LocationHeap Cache Queue Store StoreSpec StoreProofs1 StoreProofs2 StoreProofs3 StoreProofs4 StoreProofs10
  QueueProofs1 QueueProofs4 SyncGet SyncGetSpec SyncGetProofs1 SyncGetProofs2 SyncGetProofs3.
From Verif Require Properties_Store.
Local Open Scope N_scope.

Lemma seed_get_may digest fuel s id p : may (seed_get digest fuel s id) (Ok p) -> digest (sd_digest s) p = id /\ CHUNK_LIMIT_MIN <= len p <= CHUNK_LIMIT_MAX.
Proof.
  intros H. unfold seed_get in H. destruct (sd_cache s) as [root|]; [|inversion H]. destruct (sd_chunks s); cbn [negb] in H; [|inversion H].
  unfold ptry in H. apply may_bind in H. destruct H as (r1 & _ & H). destruct r1 as [text| | |]; try (inversion H; fail).
  destruct (location_parse text) as [l| | |]; try (inversion H; fail). destruct (Location.size l =? UINT64_MAX); [inversion H|]. destruct (sd_size_max s <? Location.size l); [inversion H|].
  apply may_bind in H. destruct H as (r2 & _ & H). destruct r2 as [q| | |]; try (inversion H; fail).
  destruct (chunk_id_make (digest (sd_digest s)) q) as [a| | |] eqn:Em; try (inversion H; fail). apply chunk_id_make_inv in Em. destruct Em as [-> Hl].
  unfold chunk_id_equal in H. destruct (beq id (digest (sd_digest s) q)) eqn:Eb; inversion H; subst. apply beq_eq in Eb. auto.
Qed.

Lemma remote_validate_sound digest r id p : remote_handle r -> remote_validate digest r id p = Ok tt ->
  CHUNK_LIMIT_MIN <= len p <= CHUNK_LIMIT_MAX /\ exists t, digest t p = id /\ (rm_digest r = None \/ rm_digest r = Some t).
Proof.
  intros Hr. unfold remote_validate. set (vt := match rm_validate r with Some t => t | None => _ end).
  destruct (chunk_id_make (digest vt) p) eqn:Em; try discriminate. cbn [bind]. apply chunk_id_make_inv in Em. destruct Em as [-> Hl].
  unfold chunk_id_equal. destruct (beq id (digest vt p)) eqn:Eb.
  - intros _. split; [exact Hl|]. exists vt. apply beq_eq in Eb. split; [congruence|].
    destruct (rm_digest r) as [t|] eqn:Ed; [right|left; reflexivity]. f_equal. unfold vt. destruct (Hr t Ed) as [->| ->]; reflexivity.
  - destruct (rm_digest r) eqn:Ed; [discriminate|]. destruct (try_digests digest all_dtypes vt id p) as [[t|]| | |] eqn:Et; try discriminate.
    intros _. apply try_digests_sound in Et. destruct Et. split; [lia|]. exists t. auto.
Qed.

Lemma remote_validate_ok digest r id p t : remote_handle r -> digest t p = id -> rm_digest r = None \/ rm_digest r = Some t -> CHUNK_LIMIT_MIN <= len p <= CHUNK_LIMIT_MAX ->
  remote_validate digest r id p = Ok tt.
Proof.
  intros Hst Hd Ht Hp. unfold remote_validate. set (vt := match rm_validate r with Some t => t | None => _ end).
  rewrite chunk_id_make_ok by exact Hp. cbn [bind]. unfold chunk_id_equal. destruct (beq id (digest vt p)) eqn:Eb; [reflexivity|].
  destruct (rm_digest r) as [t0|] eqn:Ed.
  - exfalso. assert (vt = t) as E.
    { destruct Ht as [Ht|Ht]; [discriminate|]. injection Ht as ->. unfold vt. destruct (Hst t Ed) as [->| ->]; reflexivity. }
    rewrite E, Hd, beq_refl in Eb. discriminate.
  - assert (t <> vt) as Hne. { intros ->. rewrite Hd, beq_refl in Eb. discriminate. }
    destruct (try_digests_ok digest vt id p t Hp Hd Hne all_dtypes) as [t' ->]. { destruct t; cbn; auto. } reflexivity.
Qed.

Lemma decompress_stands codecs fuel b v : decompress codecs fuel b [] = Some (Ok v) -> stands codecs COMPRESSED b v.
Proof.
  intros Ed. unfold decompress in Ed. destruct (bad_size b); [discriminate|].
  destruct (detect_all b) as [ct| | |] eqn:Ea; cbn [bind] in Ed; try discriminate. unfold start_codec in Ed.
  destruct (codecs ct) as [cd|] eqn:Ec; [|discriminate].
  destruct (decompress_loop_inflates _ _ _ _ _ _ _ Ed) as (p & -> & Hi & _). exists ct, cd. split; [|auto].
  unfold detect_all in Ea. destruct (detect_compression b) as [|[] | |]; congruence.
Qed.

Section Deliver.
Context (codecs : ctype -> option codec) (bound : N -> N) (HC : codecs_ok bound codecs) (digest : dtype -> list N -> list N) (fuel : nat) (id : list N) (desired : chunk_compression).

Notation delivers := (delivers codecs digest id desired).

Lemma seed_delivers t s p z b e : digest (sd_digest s) p = id -> CHUNK_LIMIT_MIN <= len p <= CHUNK_LIMIT_MAX ->
  (if compression_eqb desired COMPRESSED then compress codecs fuel t p [] = Some z /\ match z with Ok x => b = x /\ e = COMPRESSED | _ => False end else b = p /\ e = UNCOMPRESSED) ->
  delivers (FromSeed s) p b e.
Proof.
  intros Hd Hl H. unfold SyncGetSpec.delivers. destruct desired; cbn [compression_eqb] in H.
  - destruct H as [-> ->]. split; [reflexivity|]. split; [reflexivity|]. split; [exists (sd_digest s); split; [exact Hd|reflexivity]|exact Hl].
  - destruct H as [H Hz]. destruct z as [x| | |]; try contradiction. destruct Hz as [-> ->]. split; [reflexivity|].
    split; [apply represents_stands; eapply compress_represents; eassumption|]. split; [exists (sd_digest s); split; [exact Hd|reflexivity]|exact Hl].
  - destruct H as [-> ->]. split; [congruence|]. split; [reflexivity|]. split; [exists (sd_digest s); split; [exact Hd|reflexivity]|exact Hl].
Qed.

Lemma store_delivers vtd st st' b e : handle codecs digest vtd fuel st -> may (store_get codecs digest fuel st id desired) (Ok (st', b, e)) ->
  exists p, delivers (FromStore st) p b e.
Proof.
  intros Hh H. apply store_get_sound in H; [|eapply Properties_Store.handle_ok; eassumption]. destruct H as (H1 & _ & p & t & H2 & H3 & H4 & H5). exists p.
  split; [exact H1|]. split; [exact H2|]. split; [exists t; auto|exact H5].
Qed.

Lemma remote_delivers r r' b e : remote_handle r -> may (remote_request codecs digest fuel r id true desired) (r', Ok (b, e)) ->
  exists p, delivers (FromRemote r) p b e.
Proof.
  intros Hh H. unfold remote_request in H. destruct (negb (rm_pull r)); [inversion H|]. destruct (rm_eof r); [inversion H|].
  apply may_bind in H. destruct H as ([q o] & _ & H). destruct o as [[]| | |]; try (inversion H; fail).
  apply may_bind in H. destruct H as (o2 & H1 & H). destruct o2 as [[buf eff]|er| |]; try (inversion H; fail).
  2:{ assert (may (do x <- enqueue_request fuel q id true true ;; (let '(q, o) := x in match o with | Ok true => Ret (rm_with (rm_with r q) q, @Err (list N * chunk_compression) EAGAIN) | Ok false => Ret (rm_with (rm_with r q) q, Err EALREADY)
          | Err e0 => Ret (rm_with (rm_with r q) q, Err e0) | Abort => Ret (rm_with (rm_with r q) q, Abort) | UB => Ret (rm_with (rm_with r q) q, UB) end)) (r', Ok (b, e)) \/ False) as [Hx|[]].
      { destruct er; try (inversion H; fail). left. apply may_bind in H. destruct H as ([q3 o3] & _ & H). destruct o3 as [[]| | |]; inversion H. }
      apply may_bind in Hx. destruct Hx as ([q3 o3] & _ & Hx). destruct o3 as [[]| | |]; inversion Hx. }
  pose proof (load_effective _ _ _ _ _ _ _ _ H1) as [He1 He2].
  destruct ((len buf <? CHUNK_LIMIT_MIN) || (CHUNK_LIMIT_MAX <? len buf)); [inversion H|].
  apply may_bind in H. destruct H as (v & H2 & H). destruct v as [v| | |]; try (inversion H; fail).
  destruct (remote_validate digest (rm_with r q) id v) as [[]| | |] eqn:Ev; inversion H; subst. clear H.
  apply remote_validate_sound in Ev; [|exact Hh]. destruct Ev as (Hl & t & Hd & Ht). exists v. split; [exact He2|]. split; [|split; [exists t; auto|exact Hl]].
  destruct e; cbn [compression_eqb] in H2.
  - inversion H2; reflexivity.
  - unfold plift in H2. destruct (decompress codecs fuel b []) as [x|] eqn:Ed; inversion H2; subst. eapply decompress_stands; eassumption.
  - congruence.
Qed.

(** ** Anything at all may happen *)
Lemma get_seeds_may t : forall ss b e, may (get_seeds codecs digest fuel t ss id desired) (Some (Ok (b, e))) -> exists s p, In s ss /\ delivers (FromSeed s) p b e.
Proof.
  induction ss as [|s ss IH]; intros b e H; cbn [get_seeds] in H; [inversion H|]. apply may_bind in H. destruct H as (r & H1 & H).
  assert ((exists p, r = Ok p) \/ may (get_seeds codecs digest fuel t ss id desired) (Some (Ok (b, e)))) as [[p ->]|Hx].
  { destruct r as [p|er| |]; [left; eauto| |inversion H|inversion H]. right. destruct er; try (inversion H; fail); exact H. }
  2:{ destruct (IH _ _ Hx) as (s' & p & Hin & Hd). exists s', p. split; [right; exact Hin|exact Hd]. }
  destruct (seed_get_may _ _ _ _ _ H1) as [Hd Hl]. exists s, p. split; [left; reflexivity|]. destruct (compression_eqb desired COMPRESSED) eqn:Ec.
  - apply may_bind in H. destruct H as (z & Hz & H). unfold plift in Hz. destruct (compress codecs fuel t p []) as [z'|] eqn:Ez; [|inversion Hz]. assert (z' = z) by (inversion Hz; reflexivity). subst z'. clear Hz.
    apply (seed_delivers t s p z b e Hd Hl). rewrite Ec. split; [exact Ez|]. destruct z; inversion H; auto.
  - assert (p = b /\ e = UNCOMPRESSED) as [-> ->] by (inversion H; auto). apply (seed_delivers t s b UB b UNCOMPRESSED Hd Hl). rewrite Ec. auto.
Qed.

Lemma get_stores_may vtd : forall sts b e, (forall st, In st sts -> handle codecs digest vtd fuel st) -> may (get_stores codecs digest fuel sts id desired) (Some (Ok (b, e))) ->
  exists st p, In st sts /\ delivers (FromStore st) p b e.
Proof.
  induction sts as [|st sts IH]; intros b e Hh H; cbn [get_stores] in H; [inversion H|]. apply may_bind in H. destruct H as (r & H1 & H).
  destruct r as [[[st' b'] e']|er| |]; [|destruct er; try (inversion H; fail)|inversion H|inversion H].
  - inversion H; subst. destruct (store_delivers vtd st st' b e (Hh st (or_introl eq_refl)) H1) as [p Hp]. exists st, p. split; [left; reflexivity|exact Hp].
  - destruct (IH _ _ (fun x Hx => Hh x (or_intror Hx)) H) as (st' & p & Hin & Hd). exists st', p. split; [right; exact Hin|exact Hd].
Qed.

Lemma get_remotes_may : forall rs rs' b e, (forall r, In r rs -> remote_handle r) -> may (get_remotes codecs digest fuel rs id desired) (rs', Some (Ok (b, e))) ->
  exists r p, In r rs /\ delivers (FromRemote r) p b e.
Proof.
  induction rs as [|r rs IH]; intros rs' b e Hh H; cbn [get_remotes] in H; [inversion H|]. apply may_bind in H. destruct H as ([r1 o] & H1 & H).
  assert (o = Ok (b, e) \/ exists rs', may (get_remotes codecs digest fuel rs id desired) (rs', Some (Ok (b, e)))) as [->|[rs2 Hx]].
  { destruct o as [x|er| |]; [|destruct er; try (inversion H; fail)| |]; try (inversion H; subst; auto; fail).
    apply may_bind in H. destruct H as ([rs2 o2] & H2 & H). inversion H; subst. eauto. }
  - destruct (remote_delivers r r1 b e (Hh r (or_introl eq_refl)) H1) as [p Hp]. exists r, p. split; [left; reflexivity|exact Hp].
  - destruct (IH _ _ _ (fun x Hx => Hh x (or_intror Hx)) Hx) as (r' & p & Hin & Hd). exists r', p. split; [right; exact Hin|exact Hd].
Qed.

Lemma maybe_opt {A} (o : option A) : maybe o = opt o. Proof. destruct o; reflexivity. Qed.

Lemma get_local_may vtd s b e : usable codecs digest vtd fuel s -> may (get_local codecs digest fuel s id desired) (Ok (b, e)) ->
  exists x p, In x (local_sources s) /\ delivers x p b e.
Proof.
  intros [Hu _] H. unfold get_local in H. unfold sources, local_sources in *.
  assert (forall st, (In st (opt (sy_wstore s)) \/ In st (opt (sy_cache_store s)) \/ In st (sy_rstores s)) -> handle codecs digest vtd fuel st) as Hst.
  { intros st Hst. apply Hu. rewrite !in_app_iff, !in_map_iff. destruct Hst as [?|[?|?]]; left; [right; left|right; right; left|right; right; right]; eauto. }
  rewrite !maybe_opt in H.
  apply may_bind in H. destruct H as (r1 & H1 & H). destruct r1 as [r1|].
  { inversion H; subst. destruct (get_seeds_may _ _ _ _ H1) as (x & p & Hin & Hd). exists (FromSeed x), p. split; [rewrite !in_app_iff, !in_map_iff; left; eauto|exact Hd]. }
  apply may_bind in H. destruct H as (r2 & H2 & H). destruct r2 as [r2|].
  { inversion H; subst. destruct (get_stores_may vtd _ _ _ (fun st Hin => Hst st (or_introl Hin)) H2) as (x & p & Hin & Hd). exists (FromStore x), p. split; [rewrite !in_app_iff, !in_map_iff; right; left; eauto|exact Hd]. }
  apply may_bind in H. destruct H as (r3 & H3 & H). destruct r3 as [r3|].
  { inversion H; subst. destruct (get_stores_may vtd _ _ _ (fun st Hin => Hst st (or_intror (or_introl Hin))) H3) as (x & p & Hin & Hd). exists (FromStore x), p. split; [rewrite !in_app_iff, !in_map_iff; right; right; left; eauto|exact Hd]. }
  apply may_bind in H. destruct H as (r4 & H4 & H). destruct r4 as [r4|].
  { inversion H; subst. destruct (get_stores_may vtd _ _ _ (fun st Hin => Hst st (or_intror (or_intror Hin))) H4) as (x & p & Hin & Hd). exists (FromStore x), p. split; [rewrite !in_app_iff, !in_map_iff; right; right; right; eauto|exact Hd]. }
  inversion H.
Qed.

Lemma sync_get_may vtd s s' b e : usable codecs digest vtd fuel s -> may (sync_get codecs digest fuel s id desired) (s', Ok (b, e)) ->
  exists x p, In x (sources s) /\ delivers x p b e.
Proof.
  intros Hu H. unfold sync_get in H. apply may_bind in H. destruct H as (r1 & H1 & H).
  assert (r1 = Ok (b, e) \/ r1 = Err ENOENT) as [->| ->].
  { destruct r1 as [x|er| |]; [|destruct er; auto; inversion H| |]; inversion H; subst; auto. }
  { destruct (get_local_may vtd s b e Hu H1) as (x & p & Hin & Hd). exists x, p. split; [apply in_app_iff; left; exact Hin|exact Hd]. }
  destruct Hu as [_ Hu]. unfold sources in *.
  assert (forall r, (In r (opt (sy_remote_wstore s)) \/ In r (sy_remote_rstores s)) -> remote_handle r) as Hr.
  { intros r Hr. apply Hu. rewrite !in_app_iff, !in_map_iff. destruct Hr; right; [left|right]; eauto. }
  rewrite maybe_opt in H. apply may_bind in H. destruct H as ([rw o] & H2 & H). destruct o as [o|].
  { inversion H; subst. destruct (get_remotes_may _ _ _ _ (fun r Hin => Hr r (or_introl Hin)) H2) as (x & p & Hin & Hd). exists (FromRemote x), p. split; [|exact Hd].
    rewrite !in_app_iff, !in_map_iff. right. left. eauto. }
  apply may_bind in H. destruct H as ([rr o] & H3 & H). destruct o as [o|]; [|inversion H].
  inversion H; subst. destruct (get_remotes_may _ _ _ _ (fun r Hin => Hr r (or_intror Hin)) H3) as (x & p & Hin & Hd). exists (FromRemote x), p. split; [|exact Hd].
  rewrite !in_app_iff, !in_map_iff. right. right. eauto.
Qed.
End Deliver.
