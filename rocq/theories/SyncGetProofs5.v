(** C35: the order in which the places are asked. *)
From Verif Require Import Base Locator ChunkId Posix PosixProofs ChunkFile Location LocationHeap Cache Queue Store StoreSpec StoreProofs1 StoreProofs2 StoreProofs3 StoreProofs4 StoreProofs10
  QueueProofs1 QueueProofs4 SyncGet SyncGetSpec SyncGetProofs1 SyncGetProofs2 SyncGetProofs3 SyncGetProofs4.
Local Open Scope N_scope.

Lemma first_here {A} (miss has : A -> Prop) x l : has x -> first_of miss has (x :: l).
Proof. intros H. exists [], x, l. auto. Qed.
Lemma first_cons {A} (miss has : A -> Prop) x l : miss x -> first_of miss has l -> first_of miss has (x :: l).
Proof. intros H (pre & y & post & -> & Hp & Hy). exists (x :: pre), y, post. auto. Qed.
Lemma first_before {A} (miss has : A -> Prop) a b : first_of miss has a -> first_of miss has (a ++ b).
Proof. intros (pre & y & post & -> & Hp & Hy). exists pre, y, (post ++ b). rewrite <- app_assoc. auto. Qed.
Lemma first_after {A} (miss has : A -> Prop) a b : Forall miss a -> first_of miss has b -> first_of miss has (a ++ b).
Proof. intros Ha (pre & y & post & -> & Hp & Hy). exists (a ++ pre), y, post. rewrite <- app_assoc. split; [reflexivity|]. split; [apply Forall_app; auto|exact Hy]. Qed.
Lemma first_mono {A} (miss miss' has has' : A -> Prop) l : (forall x, In x l -> miss x -> miss' x) -> (forall x, In x l -> has x -> has' x) -> first_of miss has l -> first_of miss' has' l.
Proof.
  intros Hm Hh (pre & y & post & -> & Hp & Hy). exists pre, y, post. split; [reflexivity|]. split; [|apply Hh; [apply in_elt|exact Hy]].
  rewrite Forall_forall in *. intros x Hx. apply Hm; [apply in_app_iff; left; exact Hx|apply Hp; exact Hx].
Qed.

Lemma offers_same digest w w' s id p : same_files w w' -> seed_offers digest w s id p -> seed_offers digest w' s id p.
Proof. intros Hs (root & text & l & rest & H1 & H2 & H3 & H4). exists root, text, l, rest. split; [exact H1|]. split; [exact H2|]. split; [exact (noted_same _ _ _ _ _ Hs H3)|exact H4]. Qed.

Section Order.
Context (codecs : ctype -> option codec) (bound : N -> N) (HC : codecs_ok bound codecs) (digest : dtype -> list N -> list N) (vtd : list N) (fuel : nat) (id : list N) (desired : chunk_compression).

Definition found (w w' : Posix.world) (b : list N) (e : chunk_compression) (x : source) : Prop := exists p, has_it digest w w' id p x /\ delivers codecs digest id desired x p b e.

(** What a list of places came to. *)
Definition outcome (f : bool) (w w' : Posix.world) (l : list source) (r : option (res (list N * chunk_compression))) : Prop :=
  match r with
  | None => Forall (misses f digest w w' id) l
  | Some (Ok (b, e)) => first_of (misses f digest w w' id) (found w w' b e) l
  | Some (Err ENOENT) => False
  | _ => True
  end.

Lemma outcome_cons f w w' x l r : misses f digest w w' id x -> outcome f w w' l r -> outcome f w w' (x :: l) r.
Proof.
  intros Hx H. destruct r as [[[b e]|er| |]|]; cbn in *; [apply first_cons; assumption|exact H|exact I|exact I|constructor; assumption].
Qed.

Lemma get_seeds_exec f t : forall ss w w' r, exec f w (get_seeds codecs digest fuel t ss id desired) w' r ->
  same_files w w' /\ forall w2, outcome f w w2 (map FromSeed ss) r.
Proof.
  induction ss as [|s ss IH]; intros w w' r H; cbn [get_seeds] in H.
  { apply exec_ret_inv in H. destruct H as [-> ->]. split; [apply same_files_refl|]. intros w2. constructor. }
  apply exec_bind in H. destruct H as (w1 & r1 & H1 & H). destruct (seed_get_exec _ _ _ _ _ _ _ _ H1) as [Hs1 Hr1].
  assert ((exists p, r1 = Ok p) \/ (exists e, r1 = Err e /\ skipped e /\ exec f w1 (get_seeds codecs digest fuel t ss id desired) w' r) \/
          (w' = w1 /\ forall l w2, outcome f w w2 l r)) as [[p ->]|[(e & -> & Hk & Hx)|[-> Hx]]].
  { destruct r1 as [p|e| |]; [left; eauto| | |]; right.
    - destruct (match e with ESTALE | ENOLINK | ENOENT => true | _ => false end) eqn:Ee.
      + left. exists e. split; [reflexivity|]. unfold skipped. destruct e; try discriminate Ee; auto.
      + right. assert (exec f w1 (Ret (Some (Err e))) w' r) as Hx by (destruct e; try discriminate Ee; exact H). apply exec_ret_inv in Hx. destruct Hx as [-> ->].
        split; [reflexivity|]. intros l w2. destruct e; try discriminate Ee; exact I.
    - right. apply exec_ret_inv in H. destruct H as [-> ->]. split; [reflexivity|]. intros; exact I.
    - right. apply exec_ret_inv in H. destruct H as [-> ->]. split; [reflexivity|]. intros; exact I. }
  3:{ split; [exact Hs1|]. intros w2. apply Hx. }
  2:{ destruct (IH _ _ _ Hx) as [Hs2 Ho]. split; [exact (same_files_trans _ _ _ Hs1 Hs2)|]. intros w2. cbn [map]. apply outcome_cons.
      - intros Hf p Hp. exact (Hr1 Hf p Hp Hk).
      - specialize (Ho w2). assert (forall x, In x (map FromSeed ss) -> misses f digest w1 w2 id x -> misses f digest w w2 id x) as Hm.
        { intros x Hin. apply in_map_iff in Hin. destruct Hin as (s' & <- & _). cbn. intros Hm Hf p Hp. exact (Hm Hf p (offers_same _ _ _ _ _ _ Hs1 Hp)). }
        destruct r as [[[b er]|er| |]|]; cbn in *; try exact Ho.
        + eapply first_mono; [exact Hm| |exact Ho]. intros x Hin. apply in_map_iff in Hin. destruct Hin as (s' & <- & _). intros (p & Hp & Hd). exists p. split; [|exact Hd].
          cbn in *. eapply offers_same; [|exact Hp]. destruct Hs1 as [E1 E2]. split; congruence.
        + rewrite Forall_forall in *. intros x Hin. apply Hm; [exact Hin|apply Ho; exact Hin]. }
  destruct (seed_get_may _ _ _ _ _ (exec_may _ _ _ _ _ H1)) as [Hd Hl]. destruct (compression_eqb desired COMPRESSED) eqn:Ec.
  - apply exec_bind in H. destruct H as (w2 & z & H2 & H). unfold plift in H2. destruct (compress codecs fuel t p []) as [z'|] eqn:Ez; [|inversion H2].
    apply exec_ret_inv in H2. destruct H2 as [-> ->]. apply exec_ret_inv in H. destruct H as [-> ->]. split; [exact Hs1|]. intros w2. destruct z' as [b|e| |]; try exact I.
    + apply first_here. exists p. split; [exact Hr1|]. eapply (seed_delivers codecs bound HC digest fuel id desired t s p (Ok b) b COMPRESSED Hd Hl). rewrite Ec. auto.
    + cbn. destruct e; try exact I. exact (calm_compress absent io_absent codecs fuel t p ENOENT Ez eq_refl).
  - apply exec_ret_inv in H. destruct H as [-> ->]. split; [exact Hs1|]. intros w2. apply first_here. exists p. split; [exact Hr1|].
    eapply (seed_delivers codecs bound HC digest fuel id desired t s p UB p UNCOMPRESSED Hd Hl). rewrite Ec. auto.
Qed.

Lemma get_stores_exec f : forall sts w w' r, (forall st, In st sts -> handle codecs digest vtd fuel st) -> exec f w (get_stores codecs digest fuel sts id desired) w' r ->
  same_files w w' /\ forall w2, outcome f w w2 (map FromStore sts) r.
Proof.
  induction sts as [|st sts IH]; intros w w' r Hh H; cbn [get_stores] in H.
  { apply exec_ret_inv in H. destruct H as [-> ->]. split; [apply same_files_refl|]. intros w2. constructor. }
  apply exec_bind in H. destruct H as (w1 & r1 & H1 & H). destruct (store_get_err _ _ _ _ _ _ _ _ _ _ H1) as [Hs1 Hr1].
  destruct r1 as [[[st' b] e]|e| |].
  - apply exec_ret_inv in H. destruct H as [-> ->]. split; [exact Hs1|]. intros w2. apply first_here.
    destruct (store_delivers codecs digest fuel id desired vtd st st' b e (Hh st (or_introl eq_refl)) (exec_may _ _ _ _ _ H1)) as [p Hp]. exists p. split; [exact Hr1|exact Hp].
  - assert (e = ENOENT \/ (e <> ENOENT /\ w' = w1 /\ r = Some (Err e))) as [->|(He & -> & ->)].
    { destruct e; auto; right; apply exec_ret_inv in H; destruct H as [-> ->]; (split; [discriminate|]); auto. }
    2:{ split; [exact Hs1|]. intros w2. cbn. destruct e; try exact I. congruence. }
    destruct (IH _ _ _ (fun x Hx => Hh x (or_intror Hx)) H) as [Hs2 Ho]. split; [exact (same_files_trans _ _ _ Hs1 Hs2)|]. intros w2. cbn [map]. apply outcome_cons; [exact Hr1|].
    specialize (Ho w2). assert (forall x, In x (map FromStore sts) -> misses f digest w1 w2 id x -> misses f digest w w2 id x) as Hm.
    { intros x Hin. apply in_map_iff in Hin. destruct Hin as (s' & <- & _). cbn. apply store_misses_same. exact Hs1. }
    destruct r as [[[b er]|er| |]|]; cbn in *; try exact Ho.
    + eapply first_mono; [exact Hm| |exact Ho]. intros x Hin. apply in_map_iff in Hin. destruct Hin as (s' & <- & _). intros (p & (root & c & i & Hroot & Hp) & Hd). exists p. split; [|exact Hd].
      cbn. exists root, c, i. split; [exact Hroot|]. rewrite <- (name_same _ _ _ Hs1). exact Hp.
    + rewrite Forall_forall in *. intros x Hin. apply Hm; [exact Hin|apply Ho; exact Hin].
  - apply exec_ret_inv in H. destruct H as [-> ->]. split; [exact Hs1|]. intros; exact I.
  - apply exec_ret_inv in H. destruct H as [-> ->]. split; [exact Hs1|]. intros; exact I.
Qed.

Lemma outcome_app f w w' a b r : Forall (misses f digest w w' id) a -> outcome f w w' b r -> outcome f w w' (a ++ b) r.
Proof.
  intros Ha Hb. destruct r as [[[x e]|er| |]|]; cbn in *; [apply first_after; assumption|exact Hb|exact I|exact I|apply Forall_app; auto].
Qed.
Lemma outcome_stop f w w' a b r : outcome f w w' a (Some r) -> outcome f w w' (a ++ b) (Some r).
Proof. intros H. destruct r as [[x e]|er| |]; cbn in *; [apply first_before; exact H|exact H|exact I|exact I]. Qed.

(** Moving the world that the places are judged in, by a change that leaves the files alone. *)
Lemma outcome_same f w w1 w2 l r : (forall x, In x l -> match x with FromRemote _ => False | _ => True end) -> same_files w w1 -> outcome f w1 w2 l r -> outcome f w w2 l r.
Proof.
  intros Hl Hs H.
  assert (forall x, In x l -> misses f digest w1 w2 id x -> misses f digest w w2 id x) as Hm.
  { intros x Hin. specialize (Hl x Hin). destruct x as [s|st|r0]; [| |contradiction]; cbn.
    - intros Hm Hf p Hp. exact (Hm Hf p (offers_same _ _ _ _ _ _ Hs Hp)).
    - apply store_misses_same. exact Hs. }
  destruct r as [[[b e]|er| |]|]; cbn in *; try exact H.
  - eapply first_mono; [exact Hm| |exact H]. intros x Hin (p & Hp & Hd). exists p. split; [|exact Hd]. specialize (Hl x Hin). destruct x as [s|st|r0]; [| |contradiction]; cbn in *.
    + eapply offers_same; [|exact Hp]. destruct Hs as [E1 E2]. split; congruence.
    + destruct Hp as (root & c & i & Hroot & Hp). exists root, c, i. split; [exact Hroot|]. rewrite <- (name_same _ _ _ Hs). exact Hp.
  - rewrite Forall_forall in *. intros x Hin. apply Hm; [exact Hin|apply H; exact Hin].
Qed.

Lemma only_seeds ss : forall x, In x (map FromSeed ss) -> match x with FromRemote _ => False | _ => True end.
Proof. intros x H. apply in_map_iff in H. destruct H as (s & <- & _). exact I. Qed.
Lemma only_stores ss : forall x, In x (map FromStore ss) -> match x with FromRemote _ => False | _ => True end.
Proof. intros x H. apply in_map_iff in H. destruct H as (s & <- & _). exact I. Qed.

(** The result of a request for a list of places, [None] being what comes of none having it. *)
Definition answer (r : option (res (list N * chunk_compression))) : res (list N * chunk_compression) := match r with Some r => r | None => Err ENOENT end.

Lemma get_local_exec f s w w' r : usable codecs digest vtd fuel s -> exec f w (get_local codecs digest fuel s id desired) w' r ->
  same_files w w' /\ exists o, r = answer o /\ forall w2, outcome f w w2 (local_sources s) o.
Proof.
  intros [Hu _] H. unfold get_local in H. unfold sources, local_sources in *.
  assert (forall st, (In st (opt (sy_wstore s)) \/ In st (opt (sy_cache_store s)) \/ In st (sy_rstores s)) -> handle codecs digest vtd fuel st) as Hst.
  { intros st Hst. apply Hu. rewrite !in_app_iff, !in_map_iff. destruct Hst as [?|[?|?]]; left; [right; left|right; right; left|right; right; right]; eauto. }
  rewrite !maybe_opt in H.
  apply exec_bind in H. destruct H as (w1 & r1 & H1 & H). destruct (get_seeds_exec _ _ _ _ _ _ H1) as [Hs1 Ho1]. destruct r1 as [r1|].
  { apply exec_ret_inv in H. destruct H as [-> ->]. split; [exact Hs1|]. exists (Some r1). split; [reflexivity|]. intros w2. apply outcome_stop. apply Ho1. }
  apply exec_bind in H. destruct H as (w2 & r2 & H2 & H). destruct (get_stores_exec _ _ _ _ _ (fun st Hin => Hst st (or_introl Hin)) H2) as [Hs2 Ho2].
  assert (forall w3, outcome f w w3 (map FromStore (opt (sy_wstore s))) r2) as Ho2' by (intros w3; eapply outcome_same; [apply only_stores|exact Hs1|apply Ho2]). clear Ho2.
  pose proof (same_files_trans _ _ _ Hs1 Hs2) as Hs12. destruct r2 as [r2|].
  { apply exec_ret_inv in H. destruct H as [-> ->]. split; [exact Hs12|]. exists (Some r2). split; [reflexivity|]. intros w3. apply outcome_app; [apply Ho1|]. apply outcome_stop. apply Ho2'. }
  apply exec_bind in H. destruct H as (w3 & r3 & H3 & H). destruct (get_stores_exec _ _ _ _ _ (fun st Hin => Hst st (or_intror (or_introl Hin))) H3) as [Hs3 Ho3].
  assert (forall w3, outcome f w w3 (map FromStore (opt (sy_cache_store s))) r3) as Ho3' by (intros w4; eapply outcome_same; [apply only_stores|exact Hs12|apply Ho3]). clear Ho3.
  pose proof (same_files_trans _ _ _ Hs12 Hs3) as Hs13. destruct r3 as [r3|].
  { apply exec_ret_inv in H. destruct H as [-> ->]. split; [exact Hs13|]. exists (Some r3). split; [reflexivity|]. intros w4.
    apply outcome_app; [apply Ho1|]. apply outcome_app; [apply Ho2'|]. apply outcome_stop. apply Ho3'. }
  apply exec_bind in H. destruct H as (w4 & r4 & H4 & H). destruct (get_stores_exec _ _ _ _ _ (fun st Hin => Hst st (or_intror (or_intror Hin))) H4) as [Hs4 Ho4].
  assert (forall w3, outcome f w w3 (map FromStore (sy_rstores s)) r4) as Ho4' by (intros w5; eapply outcome_same; [apply only_stores|exact Hs13|apply Ho4]). clear Ho4.
  pose proof (same_files_trans _ _ _ Hs13 Hs4) as Hs14. assert (w' = w4 /\ r = answer r4) as [-> ->] by (destruct r4; apply exec_ret_inv in H; destruct H as [-> ->]; auto).
  split; [exact Hs14|]. exists r4. split; [reflexivity|]. intros w5. apply outcome_app; [apply Ho1|]. apply outcome_app; [apply Ho2'|]. apply outcome_app; [apply Ho3'|]. apply Ho4'.
Qed.

(** ** Remotes *)
Lemma grown_marked w w' r : grown w w' -> marked w r id -> marked w' r id.
Proof. intros Hg (c & t & H). exists c, t. eapply grown_some; eassumption. Qed.

Lemma get_remotes_exec : forall rs w w' rs' r, (forall x, In x rs -> remote_handle x /\ coherent w (rm_queue x) id) ->
  exec false w (get_remotes codecs digest fuel rs id desired) w' (rs', r) ->
  (match r with None | Some (Ok _) => grown w w' | _ => True end) /\ forall w0, outcome false w0 w' (map FromRemote rs) r.
Proof.
  induction rs as [|x rs IH]; intros w w' rs' r Hx H; cbn [get_remotes] in H.
  { apply exec_ret_inv in H. destruct H as [-> E]. injection E as -> ->. split; [apply grown_refl|]. intros w0. constructor. }
  apply exec_bind in H. destruct H as (w1 & [x1 o1] & H1 & H). destruct (Hx x (or_introl eq_refl)) as [Hh Hc]. pose proof (remote_request_exec _ _ _ _ _ _ _ _ _ _ Hc H1) as Hr.
  assert (o1 = Err ENOENT \/ (o1 <> Err ENOENT /\ w' = w1 /\ r = Some o1)) as [->|(Ho1 & -> & ->)].
  { destruct o1 as [y|e| |]; [|destruct e; [..|idtac]; auto| |]; right; apply exec_ret_inv in H; destruct H as [-> E]; injection E as -> ->; (split; [discriminate|]); auto. }
  - destruct Hr as [Hg Hm]. apply exec_bind in H. destruct H as (w2 & [rs2 o2] & H2 & H). apply exec_ret_inv in H. destruct H as [-> E]. injection E as -> ->.
    destruct (IH _ _ _ _ (fun y Hy => conj (proj1 (Hx y (or_intror Hy))) (grown_coherent _ _ _ _ Hg (proj2 (Hx y (or_intror Hy))))) H2) as [Hg2 Ho].
    destruct o2 as [[[b e]|e| |]|]; try (split; [exact I|]; intros w0; cbn in *; try exact I; exact (Ho w0)); (split; [exact (grown_trans _ _ _ Hg Hg2)|]); intros w0; cbn [map]; apply outcome_cons; auto;
      cbn; eapply grown_marked; eassumption.
  - destruct o1 as [[b e]|e| |]; [|split; [exact I|]; intros w0; cbn; destruct e; try exact I; congruence| |]; try (split; [exact I|intros; exact I]).
    destruct Hr as [Hg Hi]. split; [exact Hg|]. intros w0. cbn [map]. apply first_here.
    destruct (remote_delivers codecs digest fuel id desired x x1 b e Hh (exec_may _ _ _ _ _ H1)) as [p Hp]. exists p. split; [exact Hi|exact Hp].
Qed.

(** From the local places on, with what came of them known. *)
Lemma outcome_later w w' l r : (forall x, In x l -> match x with FromRemote _ => True | _ => False end) -> grown w w' ->
  (forall w0, outcome false w0 w l r) -> match r with None | Some (Ok _) => True | _ => False end -> forall w0, outcome false w0 w' l r.
Proof.
  intros Hl Hg H Hr w0. specialize (H w0). destruct r as [[[b e]|er| |]|]; try contradiction; cbn in *.
  - eapply first_mono; [| |exact H].
    + intros x Hin. specialize (Hl x Hin). destruct x as [| |r]; try contradiction. cbn. apply grown_marked. exact Hg.
    + intros x Hin (p & Hp & Hd). exists p. split; [|exact Hd]. specialize (Hl x Hin). destruct x as [| |r]; try contradiction. cbn in *. destruct Hp as (c & i & Hp). exists c, i. eapply grown_some; eassumption.
  - rewrite Forall_forall in *. intros x Hin. specialize (Hl x Hin). specialize (H x Hin). destruct x as [| |r]; try contradiction. cbn in *. eapply grown_marked; eassumption.
Qed.

Lemma only_remotes rs : forall x, In x (map FromRemote rs) -> match x with FromRemote _ => True | _ => False end.
Proof. intros x H. apply in_map_iff in H. destruct H as (s & <- & _). exact I. Qed.

Lemma sync_get_exec s w w' s' r : usable codecs digest vtd fuel s -> (forall x, In (FromRemote x) (sources s) -> coherent w (rm_queue x) id) ->
  exec false w (sync_get codecs digest fuel s id desired) w' (s', r) ->
  exists o, r = answer o /\ outcome false w w' (sources s) o.
Proof.
  intros Hu Hco H. unfold sync_get in H. apply exec_bind in H. destruct H as (w1 & r1 & H1 & H).
  destruct (get_local_exec _ _ _ _ _ Hu H1) as (Hs1 & o1 & -> & Ho1).
  assert ((w' = w1 /\ r = answer o1 /\ r <> Err ENOENT) \/ answer o1 = Err ENOENT) as [(-> & Er & Hne)|Er].
  { destruct (answer o1) as [y|e| |]; [|destruct e; auto| |]; left; apply exec_ret_inv in H; destruct H as [-> E]; injection E as _ ->; (split; [reflexivity|]); (split; [reflexivity|discriminate]). }
  { subst r. exists o1. split; [reflexivity|]. unfold sources. destruct o1 as [o1|]; [|cbn in Hne; congruence]. apply outcome_stop. apply Ho1. }
  rewrite Er in H. assert (o1 = None) as ->.
  { destruct o1 as [o1|]; [|reflexivity]. cbn in Er. subst o1. destruct (Ho1 w). }
  destruct Hu as [_ Hu]. unfold sources in *.
  assert (forall x, (In x (opt (sy_remote_wstore s)) \/ In x (sy_remote_rstores s)) -> remote_handle x /\ coherent w1 (rm_queue x) id) as Hr.
  { intros x Hr. assert (In (FromRemote x) (local_sources s ++ map FromRemote (opt (sy_remote_wstore s)) ++ map FromRemote (sy_remote_rstores s))) as Hin.
    { rewrite !in_app_iff, !in_map_iff. destruct Hr; right; [left|right]; eauto. }
    split; [apply Hu; exact Hin|]. eapply grown_coherent; [apply grown_same; exact Hs1|]. apply Hco. exact Hin. }
  rewrite maybe_opt in H. apply exec_bind in H. destruct H as (w2 & [rw o2] & H2 & H).
  destruct (get_remotes_exec _ _ _ _ _ (fun x Hin => Hr x (or_introl Hin)) H2) as [Hg2 Ho2]. destruct o2 as [o2|].
  { apply exec_ret_inv in H. destruct H as [-> E]. injection E as _ ->. exists (Some o2). split; [reflexivity|]. apply outcome_app; [apply Ho1|]. apply outcome_stop. apply Ho2. }
  apply exec_bind in H. destruct H as (w3 & [rr o3] & H3 & H).
  destruct (get_remotes_exec _ _ _ _ _ (fun x Hin => conj (proj1 (Hr x (or_intror Hin))) (grown_coherent _ _ _ _ Hg2 (proj2 (Hr x (or_intror Hin))))) H3) as [Hg3 Ho3].
  assert (w' = w3 /\ r = answer o3) as [-> ->] by (destruct o3; apply exec_ret_inv in H; destruct H as [-> E]; injection E as _ ->; auto).
  exists o3. split; [reflexivity|]. apply outcome_app; [apply Ho1|].
  destruct (match o3 with None | Some (Ok _) => true | _ => false end) eqn:E3.
  - assert (grown w2 w3) as Hg by (destruct o3 as [[]|]; try discriminate E3; exact Hg3).
    apply outcome_app; [|apply Ho3]. apply (outcome_later w2 w3 _ None (only_remotes _) Hg); [exact Ho2|exact I].
  - specialize (Ho3 w). destruct o3 as [[| | |]|]; try discriminate E3; cbn in *; auto.
Qed.
End Order.
