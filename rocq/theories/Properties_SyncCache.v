(** C47: with a cache, the index that is written describes the same archive as without. Model: SyncCache.v, specification: SyncCacheSpec.v. *)
From Verif Require Import Base Chunker ChunkerSpec ChunkerProofs SyncCache SyncCacheSpec SyncCacheProofs1 SyncCacheProofs2 SyncCacheProofs3 SyncCacheProofs4 SyncCacheProofs5.
Local Open Scope N_scope.

(** The pieces listed are the archive, whatever the cache knows or does not know, and forgets or learns meanwhile, if its answers are truthful.
    Missing for the full property: the cache must not have a chunk that lies inside of one block (see cached_index_refuted). *)
Theorem cached_index_right_partial :
  forall (digest : list N -> list N) (c : cfg) (quick : bool) (tree : list region) (use_cache : bool) (asks : list (loc -> answer)) (s : sync),
  cfg_ok c = true -> tree_ok tree ->
  (forall ask l o id, In ask asks -> ask l = Hit o id -> truthful digest tree l o id /\ ~ inside_block tree o) ->
  run digest c quick tree asks (sync_start use_cache) = (s, Finished) ->
  exists pieces, concat pieces = stream tree /\ s_index s = listing digest pieces.
Proof.
  intros digest c quick tree use asks s Hc Ht Ha Hr.
  pose proof (run_ok digest c quick tree Hc Ht (fun _ => True) asks) as H.
  assert (Hok : asks_ok digest tree (fun _ => True) asks).
  { apply Forall_forall. intros ask Hin l o id E. destruct (Ha ask l o id Hin E) as [X Y]. split; [exact X|split; [exact I|exact Y]]. }
  specialize (H Hok (sync_start use) (inv_start digest c tree Hc (fun _ => True) use)). rewrite Hr in H. destruct H as (ps & Hcore & Hcat).
  exists ps. split; [exact Hcat|apply (k_index _ _ _ _ _ _ Hcore)].
Qed.
Print Assumptions cached_index_right_partial.

(** A reader needs the chunks: each one listed was stored, or the cache claimed to know it (whether the store still has it isn't looked at). *)
Theorem cached_index_chunks_partial :
  forall (digest : list N -> list N) (c : cfg) (quick : bool) (tree : list region) (use_cache : bool) (asks : list (loc -> answer)) (s : sync),
  cfg_ok c = true -> tree_ok tree ->
  (forall ask l o id, In ask asks -> ask l = Hit o id -> truthful digest tree l o id /\ ~ inside_block tree o) ->
  run digest c quick tree asks (sync_start use_cache) = (s, Finished) ->
  forall id n, In (id, n) (s_index s) -> In id (map digest (s_stored s)) \/ exists ask l o, In ask asks /\ ask l = Hit o id.
Proof.
  intros digest c quick tree use asks s Hc Ht Ha Hr id n Hid.
  set (known := fun id => exists ask l o, In ask asks /\ ask l = Hit o id).
  pose proof (run_ok digest c quick tree Hc Ht known asks) as H.
  assert (Hok : asks_ok digest tree known asks).
  { apply Forall_forall. intros ask Hin l o i E. destruct (Ha ask l o i Hin E) as [A B]. split; [exact A|]. split; [exists ask, l, o; split; assumption|exact B]. }
  specialize (H Hok (sync_start use) (inv_start digest c tree Hc known use)). rewrite Hr in H. destruct H as (ps & Hcore & Hcat).
  pose proof (k_known _ _ _ _ _ _ Hcore) as Hk. rewrite Forall_forall in Hk. exact (Hk _ Hid).
Qed.
Print Assumptions cached_index_chunks_partial.

(** Nothing is asserted in vain, and it ends: after so many steps, either all is written or the cache failed, or gave an answer that isn't about the location asked for. *)
Definition unusable (ask : loc -> answer) (e : errno) : Prop :=
  exists l, ask l = Broken e \/
  e = EINVAL /\ exists o id, ask l = Hit o id /\ (covers o = 0 \/ forall h rest, o = h :: rest -> ~ (l_key h = l_key l /\ l_off h = l_off l)).

Theorem cached_run_ends_partial :
  forall (digest : list N -> list N) (c : cfg) (quick : bool) (tree : list region) (use_cache : bool) (asks : list (loc -> answer)) (s : sync) (o : outcome),
  cfg_ok c = true -> tree_ok tree ->
  (forall ask l o id, In ask asks -> ask l = Hit o id -> truthful digest tree l o id /\ ~ inside_block tree o) ->
  (let n := len (stream tree) in 2 * n * n + 8 * n + 5 < N.of_nat (length asks)) ->
  run digest c quick tree asks (sync_start use_cache) = (s, o) ->
  o = Finished \/ exists ask e, o = Failed e /\ In ask asks /\ unusable ask e.
Proof.
  intros digest c quick tree use asks s o Hc Ht Ha Hn Hr.
  pose proof (run_ok digest c quick tree Hc Ht (fun _ => True) asks) as H.
  assert (Hok : asks_ok digest tree (fun _ => True) asks).
  { apply Forall_forall. intros ask Hin l o' id E. destruct (Ha ask l o' id Hin E) as [X Y]. split; [exact X|split; [exact I|exact Y]]. }
  specialize (H Hok (sync_start use) (inv_start digest c tree Hc (fun _ => True) use)). rewrite Hr in H. destruct o as [| |e|].
  - exfalso. destruct H as [_ Hle].
    assert (Hm : meas tree (sync_start use) <= 2 * len (stream tree) * len (stream tree) + 8 * len (stream tree) + 5).
    { unfold meas, steps_left, pos, rank. cbn [sync_start s_index s_state s_enc s_buf map fold_right epos].
      destruct use; cbn [sync_start s_state]; clear; set (n := len (stream tree)); rewrite N.sub_0_r; nia. }
    cbv zeta in Hn. clear -Hn Hle Hm. lia.
  - left. reflexivity.
  - right. destruct H as (ask & Hin & l & El). exists ask, e. split; [reflexivity|]. split; [exact Hin|]. exists l. unfold cache_get in El.
    destruct (ask l) as [o id| |e'] eqn:Ea; [|discriminate|left; congruence]. right.
    destruct (N.eqb_spec (origin_bytes o) 0) as [E0|E0].
    { injection El as <-. split; [reflexivity|]. exists o, id. split; [reflexivity|]. left. rewrite covers_bytes. exact E0. }
    destruct o as [|h o]; [exfalso; apply E0; reflexivity|]. destruct (loc_equal l h) eqn:Eq; [discriminate|]. injection El as <-. split; [reflexivity|].
    exists (h :: o), id. split; [reflexivity|]. right. intros h' rest Eh [K1 K2]. injection Eh as <- <-. unfold loc_equal in Eq. rewrite K1, K2, !N.eqb_refl in Eq. discriminate.
  - contradiction.
Qed.
Print Assumptions cached_run_ends_partial.

(** What is put into the cache is true: the origin describes the archive somewhere, and what is there has the id. At any time, even if the run is cut short. *)
Theorem cache_entries_true_partial :
  forall (digest : list N -> list N) (c : cfg) (quick : bool) (tree : list region) (use_cache : bool) (asks : list (loc -> answer)) (s : sync) (out : outcome),
  cfg_ok c = true -> tree_ok tree ->
  (forall ask l o id, In ask asks -> ask l = Hit o id -> truthful digest tree l o id /\ ~ inside_block tree o) ->
  run digest c quick tree asks (sync_start use_cache) = (s, out) -> out = More \/ out = Finished ->
  forall o id, In (o, id) (s_puts s) -> o <> [] /\ exists p, describes tree true p o /\ digest (sub tree p (covers o)) = id.
Proof.
  intros digest c quick tree use asks s out Hc Ht Ha Hr Hout o id Hin.
  pose proof (run_ok digest c quick tree Hc Ht (fun _ => True) asks) as H.
  assert (Hok : asks_ok digest tree (fun _ => True) asks).
  { apply Forall_forall. intros ask Hi l o' id' E. destruct (Ha ask l o' id' Hi E) as [X Y]. split; [exact X|split; [exact I|exact Y]]. }
  specialize (H Hok (sync_start use) (inv_start digest c tree Hc (fun _ => True) use)). rewrite Hr in H.
  assert (Hcore : exists ps, core digest c tree (fun _ => True) ps s).
  { destruct Hout as [-> | ->]; [destruct H as ((ps & Hcore & _) & _)|destruct H as (ps & Hcore & _)]; exists ps; exact Hcore. }
  destruct Hcore as (ps & Hcore). pose proof (k_puts _ _ _ _ _ _ Hcore) as Hp. rewrite Forall_forall in Hp. exact (Hp _ Hin).
Qed.
Print Assumptions cache_entries_true_partial.

(** ** Many runs
    [trees] are the archives made so far, one for each state of the directory. What the cache has comes from runs for them, which used the cache, too; it gives an
    entry for the location it starts with only. *)
Definition starts_at (l : loc) (o : origin) : Prop := exists h rest, o = h :: rest /\ l_key h = l_key l /\ l_table h = l_table l /\ l_off h = l_off l.
Inductive entry (digest : list N -> list N) (c : cfg) (quick : bool) (trees : list region -> Prop) : origin -> list N -> Prop :=
| entry_put tree asks s out o id :
    trees tree ->
    (forall ask l o id, In ask asks -> ask l = Hit o id -> entry digest c quick trees o id) ->
    (forall ask l o id, In ask asks -> ask l = Hit o id -> starts_at l o) ->
    run digest c quick tree asks (sync_start true) = (s, out) -> out = More \/ out = Finished ->
    In (o, id) (s_puts s) -> entry digest c quick trees o id.

(** Keys (path, mtime, inode ...) tell whether a thing was changed: whatever an origin lists, it is the same data, if the name table at the start is the same. *)
Definition keys_tell (trees : list region -> Prop) : Prop :=
  forall old new o p q, trees old -> trees new -> describes old true p o -> describes new false q o ->
  (forall h rest, o = h :: rest -> exists r, here new q h r /\ l_table h = r_table r) -> sub old p (covers o) = sub new q (covers o).

Lemma entry_truthful digest c quick (trees : list region -> Prop) : cfg_ok c = true -> (forall tree, trees tree -> tree_ok tree) -> keys_tell trees ->
  (forall tree o id, trees tree -> entry digest c quick trees o id -> ~ inside_block tree o) ->
  forall o id, entry digest c quick trees o id -> exists old p, trees old /\ describes old true p o /\ digest (sub old p (covers o)) = id.
Proof.
  intros Hc Hok Hkeys Hin o id H. induction H as [tree asks s out o id Htree Hent IH Hst Hrun Hout Hputs].
  exists tree. edestruct (cache_entries_true_partial digest c quick tree true asks s out Hc (Hok _ Htree)) as (_ & p & A & B).
  - intros ask l o' id' Ha He. split; [|eapply Hin; [exact Htree|eapply Hent; eassumption]].
    destruct (IH ask l o' id' Ha He) as (old & q & Hold & Hd & Hq). split; [eapply describes_pos; exact Hd|].
    intros p r Hh Hoff Htab Hdes. rewrite <- Hq. f_equal. symmetry. apply (Hkeys old tree o' q p Hold Htree Hd Hdes).
    intros h rest E. destruct (Hst ask l o' id' Ha He) as (h' & rest' & E' & K1 & K2 & K3). rewrite E in E'. injection E' as <- <-. exists r. split.
    + destruct Hh as (i & I1 & I2 & I3). exists i. repeat split; [exact I1|congruence|congruence].
    + congruence.
  - exact Hrun.
  - exact Hout.
  - exact Hputs.
  - exists p. split; [exact Htree|]. split; [exact A|exact B].
Qed.

(** After any number of runs for changing trees, the next one is right. *)
Theorem incremental_index_right_partial :
  forall (digest : list N -> list N) (c : cfg) (quick : bool) (trees : list region -> Prop) (tree : list region) (asks : list (loc -> answer)) (s : sync),
  cfg_ok c = true -> (forall tree, trees tree -> tree_ok tree) -> keys_tell trees ->
  (forall tree o id, trees tree -> entry digest c quick trees o id -> ~ inside_block tree o) ->
  trees tree ->
  (forall ask l o id, In ask asks -> ask l = Hit o id -> entry digest c quick trees o id /\ starts_at l o) ->
  run digest c quick tree asks (sync_start true) = (s, Finished) ->
  exists pieces, concat pieces = stream tree /\ s_index s = listing digest pieces.
Proof.
  intros digest c quick trees tree asks s Hc Hok Hkeys Hin Htree Hasks Hrun.
  apply (cached_index_right_partial digest c quick tree true asks s Hc (Hok _ Htree)); [|exact Hrun].
  intros ask l o id Ha He. destruct (Hasks ask l o id Ha He) as [Hent Hst]. split; [|eapply Hin; eassumption].
  destruct (entry_truthful digest c quick trees Hc Hok Hkeys Hin o id Hent) as (old & q & Hold & Hd & Hq). split; [eapply describes_pos; exact Hd|].
  intros p r Hh Hoff Htab Hdes. rewrite <- Hq. f_equal. symmetry. apply (Hkeys old tree o q p Hold Htree Hd Hdes).
  intros h rest E. destruct Hst as (h' & rest' & E' & K1 & K2 & K3). rewrite E in E'. injection E' as <- <-. exists r. split.
  - destruct Hh as (i & I1 & I2 & I3). exists i. repeat split; [exact I1|congruence|congruence].
  - congruence.
Qed.
Print Assumptions incremental_index_right_partial.

(** With the cache off, or as long as it knows nothing, the chunks are those of C01, and all of them are stored. *)
Theorem empty_cache_same_index :
  forall (digest : list N -> list N) (c : cfg) (quick : bool) (tree : list region) (use_cache : bool) (asks : list (loc -> answer)) (s : sync),
  cfg_ok c = true -> tree_ok tree -> (use_cache = false \/ forall ask l, In ask asks -> ask l = Miss) ->
  run digest c quick tree asks (sync_start use_cache) = (s, Finished) ->
  exists chunks, chunk_stream c [stream tree] = Ok chunks /\ s_index s = listing digest chunks /\ s_stored s = chunks.
Proof.
  intros digest c quick tree use asks s Hc Ht Ha Hr. exists (spec_chunks c (stream tree)). split.
  { rewrite (chunk_stream_spec c [stream tree] Hc). cbn [concat]. rewrite app_nil_r. reflexivity. }
  assert (Hd : done digest c tree s).
  { apply (run_plain digest c quick tree Hc Ht asks (sync_start use) s); [|apply minv_start, Hc|exact Hr].
    destruct Ha as [->|Ha]; [left; reflexivity|right]. apply Forall_forall. intros ask Hin l. apply Ha, Hin. }
  destruct Hd as [A B _]. split; [exact A|exact B].
Qed.
Print Assumptions empty_cache_same_index.

Lemma head_position tree (Ht : tree_ok tree) p q l r h rest : describes tree true p (h :: rest) -> here tree q l r -> l_key h = l_key l -> l_off h = l_off l -> q = p.
Proof.
  intros Hd Hq K1 K2. inversion Hd as [|p' l' o' r' Hh Htab Hs Hl Hdo]; subst p' l' o'. destruct (here_same tree Ht _ _ _ _ _ _ Hq Hh ltac:(congruence)) as [_ E]. lia.
Qed.

Lemma finished (x : sync * outcome) : snd x = Finished -> x = (fst x, Finished).
Proof. destruct x as [s o]. cbn. intros ->. reflexivity. Qed.

(** ** Cases *)
Definition case_cfg : cfg := mkCfg 56 64 100 60.
Definition case_bytes (n : nat) : list N := map (fun i => (N.of_nat i * 37 + N.of_nat i / 7) mod 256) (seq 0 n).
Definition case_digest (l : list N) : list N := l.
(** A cache with these entries *)
Definition case_cache (puts : list (origin * list N)) (l : loc) : answer :=
  match find (fun x => match fst x with h :: _ => (l_key h =? l_key l) && (l_table h =? l_table l) && (l_off h =? l_off l) | [] => false end) puts with
  | Some (o, id) => Hit o id
  | None => Miss
  end.
Notation case_run tree puts n := (run case_digest case_cfg true tree (repeat (case_cache puts) n) (sync_start true)).

(** A file of 700 bytes, with its entry and its goodbye *)
Definition case_tree : list region := [mkRegion 1 1 false (case_bytes 20); mkRegion 2 1 true (case_bytes 700); mkRegion 3 1 false (case_bytes 30)].
Notation case_puts := (s_puts (fst (case_run case_tree [] 100))).

Lemma case_tree_ok : tree_ok case_tree.
Proof. split; [cbn; repeat constructor; cbn; intuition discriminate|]. repeat constructor; vm_compute; discriminate. Qed.

(** The entries of the first run meet what the theorems ask of a cache; so does any part of them. *)
Lemma case_cache_truthful puts : incl puts case_puts -> forall l o id, case_cache puts l = Hit o id -> truthful case_digest case_tree l o id /\ ~ inside_block case_tree o.
Proof.
  intros Hincl l o id H. unfold case_cache in H. match goal with X : match ?y with _ => _ end = _ |- _ => destruct y as [[o' id']|] eqn:Ef; [|discriminate] end. injection H as -> ->.
  apply find_some in Ef. destruct Ef as [Hin Hh]. apply Hincl in Hin. cbn [fst] in Hh. destruct o as [|h rest]; [discriminate|].
  apply andb_prop in Hh. destruct Hh as [Hh K3]. apply andb_prop in Hh. destruct Hh as [K1 K2]. apply N.eqb_eq in K1, K2, K3.
  assert (Ho : exists p, describes case_tree true p (h :: rest) /\ sub case_tree p (covers (h :: rest)) = id).
  { destruct (cache_entries_true_partial case_digest case_cfg true case_tree true (repeat (case_cache []) 100) (fst (case_run case_tree [] 100)) Finished) with (o := h :: rest) (id := id) as (_ & p & A & B).
    - reflexivity.
    - exact case_tree_ok.
    - intros ask l' o' id' Ha He. apply repeat_spec in Ha. subst ask. discriminate.
    - exact (finished (case_run case_tree [] 100) ltac:(vm_compute; reflexivity)).
    - right. reflexivity.
    - exact Hin.
    - exists p. split; [exact A|exact B]. }
  destruct Ho as (p & Hd & Hid). split.
  - split; [eapply describes_pos; exact Hd|]. intros q r Hq Hoff Htab Hdes. unfold case_digest. rewrite <- Hid.
    rewrite (head_position case_tree case_tree_ok _ _ _ _ _ _ Hd Hq K1 K3). reflexivity.
  - intros (h' & r & E & Hr & Hk & Hp & H0 & H1). injection E as <- ->.
    clear -Hin Hr Hk Hp H0 H1.
    assert (Hall : forallb (fun x => match fst x with [h] => l_key h =? 2 | _ => true end) case_puts = true) by (vm_compute; reflexivity).
    rewrite forallb_forall in Hall. specialize (Hall _ Hin). cbn [fst] in Hall. apply N.eqb_eq in Hall. rewrite Hall in Hk.
    destruct Hr as [<-|[<-|[<-|[]]]]; cbn [r_key r_payload] in Hk, Hp; discriminate.
Qed.

(** The second run reads nothing, the third only what was dropped from the cache. *)
Example case_second_run :
  snd (case_run case_tree case_puts 100) = Finished /\ s_index (fst (case_run case_tree case_puts 100)) = s_index (fst (case_run case_tree [] 100)) /\
  s_stored (fst (case_run case_tree case_puts 100)) = [] /\ length (s_index (fst (case_run case_tree [] 100))) = 9%nat.
Proof. repeat split; vm_compute; reflexivity. Qed.

Example case_right : exists pieces, concat pieces = stream case_tree /\ s_index (fst (case_run case_tree (tl case_puts) 100)) = listing case_digest pieces.
Proof.
  apply (cached_index_right_partial case_digest case_cfg true case_tree true (repeat (case_cache (tl case_puts)) 100)).
  - reflexivity.
  - exact case_tree_ok.
  - intros ask l o id Ha He. apply repeat_spec in Ha. subst ask. apply (case_cache_truthful (tl case_puts)); [|exact He].
    intros x Hx. destruct case_puts; [destruct Hx|right; exact Hx].
  - exact (finished (case_run case_tree (tl case_puts) 100) ltac:(vm_compute; reflexivity)).
Qed.

(** The file was changed (it has another mtime, hence another key): the stale entries do no harm. *)
Definition case_tree' : list region := [mkRegion 1 1 false (case_bytes 20); mkRegion 4 1 true (rev (case_bytes 640)); mkRegion 3 1 false (case_bytes 30)].
Example case_changed :
  snd (case_run case_tree' case_puts 100) = Finished /\ concat (map fst (s_index (fst (case_run case_tree' case_puts 100)))) = stream case_tree'.
Proof. split; vm_compute; reflexivity. Qed.

(** ** Refuted *)
(** The full property is false: a block (a goodbye with many names, say) of 700 bytes, a cache that knows the first two of its chunks but not the third. casync.c:2215
    [extra_offset = sz] forgets the first hit, 100 bytes are written twice. Every answer is truthful. *)
Definition block_tree : list region := [mkRegion 1 1 false (case_bytes 700)].
Notation block_puts := (firstn 2 (s_puts (fst (case_run block_tree [] 100)))).

Lemma block_tree_ok : tree_ok block_tree.
Proof. split; [cbn; repeat constructor; cbn; intuition discriminate|]. repeat constructor; vm_compute; discriminate. Qed.

Lemma block_truthful l o id : case_cache block_puts l = Hit o id -> truthful case_digest block_tree l o id.
Proof.
  intros H. unfold case_cache in H. match goal with X : match ?y with _ => _ end = _ |- _ => destruct y as [[o' id']|] eqn:Ef; [|discriminate] end. injection H as -> ->.
  apply find_some in Ef. destruct Ef as [Hin Hh]. cbn [fst] in Hh. destruct o as [|h rest]; [discriminate|].
  apply andb_prop in Hh. destruct Hh as [Hh K3]. apply andb_prop in Hh. destruct Hh as [K1 K2]. apply N.eqb_eq in K1, K2, K3.
  assert (Hin' : In (h :: rest, id) (s_puts (fst (case_run block_tree [] 100)))).
  { rewrite <- (firstn_skipn 2). apply in_or_app. left. exact Hin. }
  destruct (cache_entries_true_partial case_digest case_cfg true block_tree true (repeat (case_cache []) 100) (fst (case_run block_tree [] 100)) Finished) with (o := h :: rest) (id := id) as (_ & p & Hd & Hid).
  - reflexivity.
  - exact block_tree_ok.
  - intros ask l' o' id' Ha He. apply repeat_spec in Ha. subst ask. discriminate.
  - exact (finished (case_run block_tree [] 100) ltac:(vm_compute; reflexivity)).
  - right. reflexivity.
  - exact Hin'.
  - split; [eapply describes_pos; exact Hd|]. intros q r Hq Hoff Htab Hdes. rewrite <- Hid.
    rewrite (head_position block_tree block_tree_ok _ _ _ _ _ _ Hd Hq K1 K3). reflexivity.
Qed.

Theorem cached_index_refuted :
  exists (digest : list N -> list N) (c : cfg) (quick : bool) (tree : list region) (asks : list (loc -> answer)) (s : sync),
  cfg_ok c = true /\ tree_ok tree /\
  (forall ask l o id, In ask asks -> ask l = Hit o id -> truthful digest tree l o id) /\
  run digest c quick tree asks (sync_start true) = (s, Finished) /\
  ~ exists pieces, concat pieces = stream tree /\ s_index s = listing digest pieces.
Proof.
  exists case_digest, case_cfg, true, block_tree, (repeat (case_cache block_puts) 100), (fst (case_run block_tree block_puts 100)).
  split; [reflexivity|]. split; [exact block_tree_ok|]. split.
  { intros ask l o id Ha He. apply repeat_spec in Ha. subst ask. apply block_truthful, He. }
  split.
  { exact (finished (case_run block_tree block_puts 100) ltac:(vm_compute; reflexivity)). }
  intros (pieces & Hcat & Hidx). apply (f_equal (fun l => len (concat (map fst l)))) in Hidx.
  assert (Hmap : concat (map fst (listing case_digest pieces)) = concat pieces).
  { unfold listing. rewrite map_map. cbn [fst]. unfold case_digest. rewrite map_id. reflexivity. }
  rewrite Hmap, Hcat in Hidx. vm_compute in Hidx. discriminate.
Qed.
Print Assumptions cached_index_refuted.

(** And the chunks need not be those of a run without a cache, nor be as large as they have to: after a hit for data that was in the buffer already, the
    chunker still counts that data. Here a chunk of 20 bytes is cut, not the last one, with a minimum of 56. *)
Definition small_tree : list region := map (fun i => mkRegion (N.of_nat i) 1 true (firstn 90 (skipn (90 * i) (case_bytes 700)))) (seq 0 7).
Definition odd_ones {A} (l : list A) : list A := map snd (filter (fun x => Nat.odd (fst x)) (combine (seq 0 7) l)).
Lemma every_second {A} (l : list A) x : In x (odd_ones l) -> In x l.
Proof.
  unfold odd_ones. intros Hin. apply in_map_iff in Hin. destruct Hin as ([i e] & E & Hi). cbn [snd] in E. subst e. apply filter_In in Hi. destruct Hi as [Hi _].
  eapply in_combine_r. exact Hi.
Qed.
Notation small_puts := (odd_ones (s_puts (fst (run case_digest case_cfg true small_tree (repeat (fun _ => Miss) 200) (sync_start true))))).

Lemma case_cache_in puts l o id : case_cache puts l = Hit o id -> In (o, id) puts /\ starts_at l o.
Proof.
  intros He. unfold case_cache in He. match goal with X : match ?y with _ => _ end = _ |- _ => destruct y as [[o' id']|] eqn:Ef; [|discriminate] end. injection He as -> ->.
  apply find_some in Ef. destruct Ef as [Hin Hh]. cbn [fst] in Hh. destruct o as [|h rest]; [discriminate|].
  apply andb_prop in Hh. destruct Hh as [Hh K3]. apply andb_prop in Hh. destruct Hh as [K1 K2]. apply N.eqb_eq in K1, K2, K3. split; [exact Hin|].
  exists h, rest. repeat split; assumption.
Qed.
Lemma small_tree_ok : tree_ok small_tree.
Proof. split; [cbn; repeat constructor; cbn; intuition discriminate|repeat constructor; vm_compute; discriminate]. Qed.
Lemma small_finishes : snd (case_run small_tree small_puts 200) = Finished.
Proof. vm_compute. reflexivity. Qed.
Lemma small_split : s_index (fst (case_run small_tree small_puts 200)) = firstn 2 (s_index (fst (case_run small_tree small_puts 200))) ++
  nth 2 (s_index (fst (case_run small_tree small_puts 200))) ([], 0) :: skipn 3 (s_index (fst (case_run small_tree small_puts 200))).
Proof. vm_compute. reflexivity. Qed.
Lemma small_post : skipn 3 (s_index (fst (case_run small_tree small_puts 200))) <> [].
Proof. vm_compute. discriminate. Qed.
Lemma small_x : snd (nth 2 (s_index (fst (case_run small_tree small_puts 200))) ([], 0)) < c_min case_cfg.
Proof. vm_compute. reflexivity. Qed.

Theorem cached_chunk_sizes_refuted :
  exists (digest : list N -> list N) (c : cfg) (quick : bool) (tree : list region) (asks : list (loc -> answer)) (s : sync) (pre post : list (list N * N)) (x : list N * N),
  cfg_ok c = true /\ tree_ok tree /\
  (forall ask l o id, In ask asks -> ask l = Hit o id -> In (o, id) (s_puts (fst (run digest c quick tree (repeat (fun _ => Miss) 200) (sync_start true)))) /\ starts_at l o) /\
  run digest c quick tree asks (sync_start true) = (s, Finished) /\
  s_index s = pre ++ x :: post /\ post <> [] /\ snd x < c_min c.
Proof.
  exists case_digest, case_cfg, true, small_tree, (repeat (case_cache small_puts) 200), (fst (case_run small_tree small_puts 200)).
  exists (firstn 2 (s_index (fst (case_run small_tree small_puts 200)))), (skipn 3 (s_index (fst (case_run small_tree small_puts 200)))), (nth 2 (s_index (fst (case_run small_tree small_puts 200))) ([], 0)).
  split; [reflexivity|]. split; [exact small_tree_ok|]. split.
  { intros ask l o id Ha He. apply repeat_spec in Ha. subst ask. destruct (case_cache_in _ _ _ _ He) as [Hin Hst]. split; [exact (every_second _ _ Hin)|exact Hst]. }
  split; [exact (finished _ small_finishes)|]. split; [exact small_split|]. split; [exact small_post|exact small_x].
Qed.
Print Assumptions cached_chunk_sizes_refuted.
