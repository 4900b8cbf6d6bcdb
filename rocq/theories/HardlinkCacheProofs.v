(** The cache of hard link targets. *)
From Verif Require Import Base ArchiveBase ChunkId ChunkIdProofs Location LocationSpec LocationProofs1 LocationProofs2 Properties_ChunkId Properties_Location Fs HardlinkCache HardlinkCacheSpec HardlinkProofs.
Local Open Scope N_scope.

Lemma entry_name_inj a b : id_ok a = true -> id_ok b = true -> entry_name a = entry_name b -> a = b.
Proof.
  intros A B E. destruct (chunk_id_round_trip a A) as (LA & _ & PA). destruct (chunk_id_round_trip b B) as (LB & _ & PB).
  assert (X : forall v, length v = 64%nat -> skipn 5 (firstn 4 v ++ 47 :: v) = v) by (intros [|? [|? [|? [|? v]]]] H; try discriminate; reflexivity).
  unfold entry_name in E. cbv zeta in E. apply (f_equal (skipn 5)) in E. rewrite !X in E by assumption. congruence.
Qed.

Lemma store_get c id text t c1 : store c id text t = Ok c1 ->
  forall k, get k c1 = match get k c with Some x => Some x | None => if beq k (entry_name id) then (match get (entry_name id) c with Some x => None | None => Some text end) else None end.
Proof.
  unfold store. intros H k. destruct (get (entry_name id) c) as [y|] eqn:G.
  - injection H as <-. destruct (get k c) eqn:K; [reflexivity|]. destruct (beq k (entry_name id)); reflexivity.
  - destruct t; [discriminate|]. injection H as <-. rewrite get_put. destruct (beq k (entry_name id)) eqn:E; [|destruct (get k c); reflexivity].
    apply beq_eq in E. subst k. rewrite G. reflexivity.
Qed.

(** The location of a whole file. *)
Definition whole (p : list N) (l : loc) : Prop := location_new (Some p) DES_ENTRY 0 UINT64_MAX = Ok l.
Lemma whole_read p l : whole p l -> exists l', location_parse (location_format l (WITH_SIZE + WITH_MTIME + WITH_FEATURE_FLAGS)) = Ok l' /\
  designator l' = DES_ENTRY /\ offset l' = 0 /\ size l' = UINT64_MAX /\ path_text (path l') = p.
Proof.
  intros H. apply location_new_exact in H as (K & R & _ & _ & _ & _ & E); [|unfold u64; vm_compute; discriminate|unfold u64; lia].
  assert (P : proper l /\ typed l /\ path_text (path l) = p).
  { subst l. cbn [path_text] in *. assert (Q : path_text (if beq p [] then None else Some p) = p) by (destruct (beq p []) eqn:B; [apply beq_eq in B; subst p|]; reflexivity).
    split; [|split; [|exact Q]].
    - constructor; cbn.
      + exact K.
      + intros q Hq. destruct (beq p []) eqn:B; [discriminate|]. injection Hq as <-. split; [intros ->; discriminate|]. intros q Hq. apply (R q). rewrite Hq. reflexivity.
      + discriminate.
      + reflexivity.
      + split; [discriminate|auto].
    - apply mkTyped; cbn [offset size mtime Location.inode generation feature_flags archive_offset name_table]; unfold u64; try (apply N.le_refl); try (apply N.le_0_l); [split; [intros X; discriminate X|reflexivity]|constructor]. }
  destruct P as (P & T & Q). exists (kept (WITH_SIZE + WITH_MTIME + WITH_FEATURE_FLAGS) l). split; [apply location_round_trip; assumption|].
  unfold kept. cbn [designator offset size path]. rewrite Q. subst l. repeat split; reflexivity.
Qed.

Section Cached.
(** Where an entry comes from. *)
Definition source (h : list event) (k text : list N) : Prop :=
  (exists v p x l, In x h /\ tells v p x /\ id_ok v = true /\ k = entry_name v /\ whole p l /\ text = location_format l (WITH_SIZE + WITH_MTIME + WITH_FEATURE_FLAGS)) \/
  (exists id l t, In (Chunked id l t) h /\ k = entry_name id /\ proper l /\ typed l /\ size l <> UINT64_MAX /\ text = location_format l WITH_ALL).
Lemma source_more h h' k text : source h k text -> incl h h' -> source h' k text.
Proof. intros [(v & p & x & l & H1 & H) | (id & l & t & H1 & H)] Hi; [left; exists v, p, x, l|right; exists id, l, t]; auto. Qed.

Lemma cached_source enabled h : Forall event_ok h -> forall k text, get k (cached enabled h) = Some text -> source h k text.
Proof.
  unfold cached. induction h as [|x h IH] using rev_ind; intros F k text; [discriminate|]. apply Forall_app in F. destruct F as [F Fx]. inversion Fx as [|? ? Ox _]; subst.
  rewrite fold_left_app. cbn [fold_left]. set (c := fold_left (happens enabled) h []) in *. specialize (IH F).
  assert (Old : get k c = Some text -> source (h ++ [x]) k text) by (intros G; eapply source_more; [apply IH, G|apply incl_appl, incl_refl]).
  unfold happens. destruct x as [mode digest p t|id l t].
  - unfold cache_hardlink. destruct (negb enabled); [exact Old|]. destruct (S_ISREG mode) eqn:M; cbn [negb]; [|exact Old]. destruct digest as [v| | |]; try exact Old. cbn [bind].
    destruct (location_new (Some p) DES_ENTRY 0 UINT64_MAX) as [l| | |] eqn:L; try exact Old. cbn [bind].
    destruct (store c v _ t) as [c1| | |] eqn:S; try exact Old. intros G. rewrite (store_get _ _ _ _ _ S) in G.
    destruct (get k c) as [y|] eqn:K; [apply Old, G|]. destruct (beq k (entry_name v)) eqn:E; [|discriminate]. destruct (get (entry_name v) c); [discriminate|].
    injection G as <-. apply beq_eq in E. left. exists v, p, (Finished mode (Ok v) p t), l.
    split; [apply in_or_app; right; left; reflexivity|]. split; [exists mode, t; auto|]. split; [exact (Ox v eq_refl)|]. auto.
  - unfold write_cache_entry. destruct (store c id _ t) as [c1| | |] eqn:S; try exact Old. intros G. rewrite (store_get _ _ _ _ _ S) in G.
    destruct (get k c) as [y|] eqn:K; [apply Old, G|]. destruct (beq k (entry_name id)) eqn:E; [|discriminate]. destruct (get (entry_name id) c); [discriminate|].
    injection G as <-. apply beq_eq in E. right. exists id, l, t. destruct Ox as (_ & P & T & Z).
    split; [apply in_or_app; right; left; reflexivity|]. auto.
Qed.

Lemma happens_more enabled c x k text : get k c = Some text -> get k (happens enabled c x) = Some text.
Proof.
  intros G. assert (O : forall id s t, get k (match store c id s t with Ok c1 => c1 | _ => c end) = Some text).
  { intros id s t. destruct (store c id s t) as [c1| | |] eqn:S; try exact G. rewrite (store_get _ _ _ _ _ S), G. reflexivity. }
  unfold happens. destruct x as [mode digest p t|id l t]; [|apply O]. unfold cache_hardlink. destruct (negb enabled); [exact G|]. destruct (negb (S_ISREG mode)); [exact G|].
  destruct digest as [v| | |]; try exact G. cbn [bind]. destruct (location_new _ _ _ _); try exact G. apply O.
Qed.
Lemma cached_more enabled h : forall c k text, get k c = Some text -> get k (fold_left (happens enabled) h c) = Some text.
Proof. induction h as [|x h IH]; intros c k text G; cbn [fold_left]; [exact G|]. apply IH, happens_more, G. Qed.
End Cached.

Theorem found_sound h v o : Forall event_ok h -> id_ok v = true -> get_hardlink_target true v (cached true h) = Ok o -> exists x, In x h /\ tells v (path_text o) x.
Proof.
  intros F V G. unfold get_hardlink_target in G. cbn [negb] in G. destruct (get (entry_name v) (cached true h)) as [text|] eqn:K; [|discriminate].
  destruct (cached_source true h F _ _ K) as [(v' & p & x & l & H & T & V' & E & W & ->) | (id & l & t & _ & _ & P & T & Z & ->)].
  - apply entry_name_inj in E; try assumption. subst v'. destruct (whole_read p l W) as (l' & R & _ & _ & _ & Q). rewrite R in G. cbn [bind] in G.
    destruct (_ || _)%bool; [discriminate|]. injection G as <-. rewrite Q. eauto.
  - rewrite location_round_trip in G by assumption. cbn [bind] in G. replace (size (kept WITH_ALL l)) with (size l) in G by reflexivity.
    apply N.eqb_neq in Z. rewrite Z, orb_true_r in G. discriminate.
Qed.

Lemma new_never p r : (forall q, p <> 47 :: q) -> location_new (Some p) DES_ENTRY 0 UINT64_MAX = r -> (forall l, r <> Ok l) -> False.
Proof.
  intros R E H. subst r. eapply H. apply location_new_exact; [unfold u64; vm_compute; discriminate|unfold u64; lia|].
  split; [left; reflexivity|]. split; [intros q Hq; injection Hq; apply R|]. split; [discriminate|]. split; [discriminate|]. split; [discriminate|]. split; [left; reflexivity|reflexivity].
Qed.
Theorem found_complete h1 h2 mode v p : Forall event_ok (h1 ++ Finished mode (Ok v) p None :: h2) -> S_ISREG mode = true -> (forall q, p <> 47 :: q) ->
  Forall (fun x => ~ about v x) h1 ->
  exists o, get_hardlink_target true v (cached true (h1 ++ Finished mode (Ok v) p None :: h2)) = Ok o /\ path_text o = p.
Proof.
  intros F M R A. apply Forall_app in F. destruct F as [F1 F2]. inversion F2 as [|? ? Ov _]; subst. specialize (Ov v eq_refl).
  unfold cached. rewrite fold_left_app. cbn [fold_left]. change (fold_left (happens true) h1 []) with (cached true h1).
  assert (G : get (entry_name v) (cached true h1) = None).
  { destruct (get (entry_name v) (cached true h1)) as [text|] eqn:K; [exfalso|reflexivity].
    rewrite Forall_forall in A. destruct (cached_source true h1 F1 _ _ K) as [(v' & p' & x & l & H & T & V' & E & _) | (id & l & t & H & E & _)].
    - apply entry_name_inj in E; try assumption. subst v'. apply (A x H). left. eauto.
    - rewrite Forall_forall in F1. destruct (F1 _ H) as (Vi & _). apply entry_name_inj in E; try assumption. subst id. apply (A _ H). right. eauto. }
  destruct (location_new (Some p) DES_ENTRY 0 UINT64_MAX) as [l| | |] eqn:L.
  - destruct (whole_read p l L) as (l' & Rd & D & O & Z & Q). unfold get_hardlink_target. cbn [negb].
    rewrite (cached_more true h2 _ _ (location_format l (WITH_SIZE + WITH_MTIME + WITH_FEATURE_FLAGS))).
    + rewrite Rd. cbn [bind]. rewrite D, O, Z, !N.eqb_refl. cbn [negb orb]. eauto.
    + unfold happens, cache_hardlink. cbn [negb]. rewrite M. cbn [negb bind]. rewrite L. cbn [bind]. unfold store. rewrite G. rewrite get_put, beq_refl. reflexivity.
  - exfalso. apply (new_never _ _ R L). discriminate.
  - exfalso. apply (new_never _ _ R L). discriminate.
  - exfalso. apply (new_never _ _ R L). discriminate.
Qed.
