(** The store as a map: puts, lookups and removals one after the other, each of which may fail anywhere. *)
From Verif Require Import Base ChunkId ChunkIdProofs Posix PosixProofs ChunkFile Store StoreSpec StoreProofs1 StoreProofs2 StoreProofs3 StoreProofs4 StoreProofs5.
Local Open Scope N_scope.
Local Opaque BUFFER_SIZE CHUNK_LIMIT_MAX CHUNK_LIMIT_MIN.

Lemma store_validate_bad digest st id p :
  ~ named digest st id p -> CHUNK_LIMIT_MIN <= len p <= CHUNK_LIMIT_MAX -> store_ok st -> store_validate digest st id p = Err EBADMSG.
Proof.
  intros Hn Hl Hst. destruct (store_validate digest st id p) as [st'|e| |] eqn:E.
  - exfalso. apply store_validate_sound in E; [|exact Hst]. destruct E as (_ & t & _ & H1 & H2). apply Hn. exists t. auto.
  - unfold store_validate in E. rewrite chunk_id_make_ok in E by exact Hl. cbn [bind] in E.
    destruct (chunk_id_equal id _); [discriminate|]. destruct (st_digest st); [congruence|].
    cbn [all_dtypes try_digests] in E. rewrite !chunk_id_make_ok in E by exact Hl. cbn [bind] in E.
    repeat match type of E with context [if ?b then _ else _] => destruct b; cbn [bind] in E end; congruence.
  - exfalso. unfold store_validate in E. rewrite chunk_id_make_ok in E by exact Hl. cbn [bind] in E.
    destruct (chunk_id_equal id _); [discriminate|]. destruct (st_digest st); [congruence|].
    cbn [all_dtypes try_digests] in E. rewrite !chunk_id_make_ok in E by exact Hl. cbn [bind] in E.
    repeat match type of E with context [if ?b then _ else _] => destruct b; cbn [bind] in E end; congruence.
  - exfalso. unfold store_validate in E. rewrite chunk_id_make_ok in E by exact Hl. cbn [bind] in E.
    destruct (chunk_id_equal id _); [discriminate|]. destruct (st_digest st); [congruence|].
    cbn [all_dtypes try_digests] in E. rewrite !chunk_id_make_ok in E by exact Hl. cbn [bind] in E.
    repeat match type of E with context [if ?b then _ else _] => destruct b; cbn [bind] in E end; congruence.
Qed.

(** Well-formed content under the wrong name is refused. *)
Lemma store_get_bad codecs bound digest fuel w st root id desired p :
  codecs_ok bound codecs -> enough fuel -> store_ok st -> st_root st = Some root ->
  holds codecs w root id p -> ~ named digest st id p -> CHUNK_LIMIT_MIN <= len p < CHUNK_LIMIT_MAX ->
  (desired = COMPRESSED -> name_at w (chunk_name root id COMPRESSED) = None ->
     exists ct cd, st_ctype st = Some ct /\ codecs ct = Some cd /\ bound (len p) < CHUNK_LIMIT_MAX) ->
  ends false w (store_get codecs digest fuel st id desired) (fun w' r => r = Err EBADMSG /\ same_files w w').
Proof.
  intros HC Hf Hst Hroot Hh Hnm Hp Hct. unfold store_get. rewrite Hroot. apply ends_bind.
  eapply ends_mono; [|apply (chunk_file_load_ok codecs bound fuel w root id desired (st_ctype st) p HC Hf Hh Hp Hct)].
  cbv beta. intros w' r (Hsm & b & e & -> & Hrep & Hl & He).
  assert (store_validate digest st id p = Err EBADMSG) as Hv by (apply store_validate_bad; [exact Hnm|lia|exact Hst]).
  destruct e; cbn [compression_eqb]; cbn in Hrep.
  - subst b. cbn. rewrite Hv. cbn. auto.
  - destruct Hrep as (ct & cd & H1 & H2 & H3).
    rewrite (decompress_ok codecs fuel b p ct cd H1 H2 H3) by (unfold enough in Hf; lia).
    cbn. rewrite Hv. cbn. auto.
  - contradiction.
Qed.

(** What a store directory holds, as a map from ids to chunks: the chunk, or nothing under either name. *)
Definition contains (codecs : ctype -> option codec) (w : world) (root : list N) (m : list N -> option (list N)) : Prop :=
  forall id, id_ok id = true ->
  match m id with
  | Some p => holds codecs w root id p
  | None => present w root id = false
  end.

Lemma holds_present codecs w root id p : holds codecs w root id p -> present w root id = true.
Proof.
  intros [(c & content & H) _]. unfold present. unfold file_at in H.
  destruct c; unfold chunk_name in *.
  - destruct (name_at w (chunk_id_format_path root id cacnk)); [reflexivity|]. destruct (name_at w (chunk_id_format_path root id [])); [reflexivity|discriminate].
  - destruct (name_at w (chunk_id_format_path root id cacnk)); [reflexivity|discriminate].
  - destruct (name_at w (chunk_id_format_path root id cacnk)); [reflexivity|discriminate].
Qed.

Definition update (m : list N -> option (list N)) (id : list N) (x : option (list N)) : list N -> option (list N) :=
  fun id' => if beq id id' then x else m id'.

(** A change that keeps the names of a chunk and all contents keeps the chunk. *)
Lemma file_kept w w' q c : files_kept w w' -> name_at w' q = name_at w q -> file_at w q = Some c -> file_at w' q = Some c.
Proof. intros Hk Hn H. unfold file_at in *. rewrite Hn. destruct (name_at w q) as [[| |i]|]; try discriminate. auto. Qed.

Lemma holds_kept codecs w w' root id p : files_kept w w' ->
  (forall c, name_at w' (chunk_name root id c) = name_at w (chunk_name root id c)) ->
  holds codecs w root id p -> holds codecs w' root id p.
Proof.
  intros Hk Hn [(c & content & H1) H2]. split.
  - exists c, content. eapply file_kept; eauto.
  - intros c' Hc'. destruct (H2 c' Hc') as [H|(x & Hx & Hr)]; [left; rewrite Hn; exact H|right]. exists x. split; [eapply file_kept; eauto|exact Hr].
Qed.

Lemma present_kept w w' root id : (forall c, name_at w' (chunk_name root id c) = name_at w (chunk_name root id c)) -> present w' root id = present w root id.
Proof. intros H. unfold present. rewrite !H. reflexivity. Qed.

(** The effect of a save on the map. *)
Lemma save_effect_map codecs w w' root id fc p done m :
  id_ok id = true -> fc <> AS_IS -> contains codecs w root m -> save_effect CHUNK_LIMIT_MAX codecs w w' root id fc p done ->
  (done -> m id = None) /\
  (contains codecs w' root (update m id (Some p)) /\ m id = None \/ contains codecs w' root m /\ ~ done).
Proof.
  intros Hid Hfc Hm (Hk & Hq & Hor & Hdone).
  assert (present w root id = false -> m id = None) as Hpn.
  { intros Hp. specialize (Hm id Hid). destruct (m id); [|reflexivity]. apply holds_present in Hm. congruence. }
  split; [intros H; apply Hpn; apply Hdone; exact H|].
  assert (forall id' c, id_ok id' = true -> id' <> id -> name_at w' (chunk_name root id' c) = name_at w (chunk_name root id' c)) as Hother.
  { intros id' c Hid' Hne. apply Hq.
    - intros E. unfold chunk_name in E. apply path_inj in E; [|assumption..]. destruct E; congruence.
    - intros E. symmetry in E. revert E. apply subdir_not_chunk. exact Hid'.
    - intros (v & E). unfold chunk_name in E. apply path_inj in E; [|assumption..]. destruct E; congruence. }
  assert (forall c, chunk_name root id c <> chunk_name root id fc -> name_at w' (chunk_name root id c) = name_at w (chunk_name root id c)) as Hsame.
  { intros c Hne. apply Hq; [exact Hne| |].
    - intros E. symmetry in E. revert E. apply subdir_not_chunk. exact Hid.
    - intros (v & E). symmetry in E. revert E. apply names_differ. exact Hid. }
  assert (forall mm, (forall id', id' <> id -> mm id' = m id') ->
     match mm id with Some p' => holds codecs w' root id p' | None => present w' root id = false end -> contains codecs w' root mm) as Hbuild.
  { intros mm Hmm Hat id' Hid'. destruct (beq id id') eqn:Eb.
    - apply beq_eq in Eb. subst id'. exact Hat.
    - apply beq_neq in Eb. assert (id' <> id) as Hne by congruence. rewrite Hmm by exact Hne. specialize (Hm id' Hid').
      destruct (m id'); [eapply holds_kept; eauto|]. rewrite (present_kept w w'); [exact Hm|]. intros c. apply Hother; assumption. }
  assert ((present w root id = false /\ exists content, file_at w' (chunk_name root id fc) = Some content /\ represents codecs fc content p /\ len content < CHUNK_LIMIT_MAX)
          -> contains codecs w' root (update m id (Some p)) /\ m id = None) as Hstored.
  { intros (Hp & content & Hf & Hr & Hl). split; [|apply Hpn; exact Hp]. apply Hbuild.
    - intros id' Hne. unfold update. assert (beq id id' = false) as -> by (apply beq_neq; congruence). reflexivity.
    - unfold update. rewrite beq_refl. split; [eauto|]. intros c Hc. destruct (list_eq_dec N.eq_dec (chunk_name root id c) (chunk_name root id fc)) as [E|E].
      + assert (c = fc) as ->.
        { unfold chunk_name in E. apply path_inj in E; [|assumption..]. destruct E as [_ E]. destruct Hc as [->| ->], fc; congruence || discriminate. }
        right. exists content. auto.
      + left. rewrite Hsame by exact E. apply (present_false w root id c Hp Hc). }
  destruct Hor as [Hor|Hst]; [|left; apply Hstored; exact Hst].
  destruct (present w root id) eqn:Ep.
  - right. split; [|intros Hd; destruct (Hdone Hd); congruence]. apply Hbuild; [reflexivity|].
    specialize (Hm id Hid). assert (forall c, name_at w' (chunk_name root id c) = name_at w (chunk_name root id c)) as Hall.
    { intros c. destruct (list_eq_dec N.eq_dec (chunk_name root id c) (chunk_name root id fc)) as [E|E]; [rewrite E; exact Hor|apply Hsame; exact E]. }
    destruct (m id); [eapply holds_kept; eauto|]. rewrite (present_kept w w'); [exact Hm|exact Hall].
  - (* unchanged: then it isn't done *)
    right. split.
    + apply Hbuild; [reflexivity|]. rewrite (Hpn eq_refl).
      assert (forall c, name_at w' (chunk_name root id c) = name_at w (chunk_name root id c)) as Hall.
      { intros c. destruct (list_eq_dec N.eq_dec (chunk_name root id c) (chunk_name root id fc)) as [E|E]; [rewrite E; exact Hor|apply Hsame; exact E]. }
      rewrite (present_kept w w'); [exact Ep|exact Hall].
    + intros Hd. destruct (Hdone Hd) as (_ & content & Hf & _). unfold file_at in Hf. rewrite Hor in Hf.
      rewrite (present_false w root id fc Ep) in Hf; [discriminate|]. destruct fc; [auto|auto|congruence].
Qed.

Section Put.
Context (codecs : ctype -> option codec) (bound : N -> N) (HC : codecs_ok bound codecs).

Lemma contains_same_but w w' root m (d : list N -> Prop) : (forall q, d q -> forall id c, id_ok id = true -> q <> chunk_name root id c) ->
  same_but d w w' -> contains codecs w root m -> contains codecs w' root m.
Proof.
  intros Hd Hs Hm id Hid. pose proof (files_kept_same _ _ _ Hs) as Hk. destruct Hs as [_ Hs]. specialize (Hm id Hid).
  assert (forall c, name_at w' (chunk_name root id c) = name_at w (chunk_name root id c)) as Hn.
  { intros c. apply Hs. intros Hx. exact (Hd _ Hx id c Hid eq_refl). }
  destruct (m id); [eapply holds_kept; eauto|]. rewrite (present_kept w w'); [exact Hm|exact Hn].
Qed.

(** ca_store_put on a store with a directory. *)
Lemma store_put_map f vtd fuel w st root id effective data p m w' st' r :
  st_root st = Some root -> id_ok id = true -> represents codecs effective data p -> len data < CHUNK_LIMIT_MAX -> contains codecs w root m ->
  exec f w (store_put codecs vtd fuel st id effective data) w' (st', r) ->
  (st' = st \/ st' = store_mkdir_done st) /\
  (r = Ok tt -> m id = None) /\
  (contains codecs w' root (update m id (Some p)) /\ m id = None \/ contains codecs w' root m /\ r <> Ok tt).
Proof.
  intros Hroot Hid Hrep Hl Hm H. unfold store_put in H. rewrite Hroot in H. cbn [pbind] in H. rewrite Hroot in H.
  apply exec_bind in H. destruct H as (w1 & r1 & H1 & H).
  assert (contains codecs w1 root m /\ (forall st1, r1 = Ok st1 -> st1 = st \/ st1 = store_mkdir_done st)) as [Hm1 Hst].
  { destruct (st_mkdir_done st).
    - ret H1. split; [exact Hm|]. intros st1 Hs. injection Hs as <-. auto.
    - apply exec_sys_inv in H1. destruct H1 as (w2 & r2 & Hs & H1). split.
      + assert (same_but (eq root) w w2) as Hsb.
        { destruct (sys_mkdir _ _ _ _ _ Hs) as [(_ & -> & _)|Hr]; [apply same_but_refl|].
          destruct (name_at w root); destruct Hr as [-> _]; [apply same_but_refl|apply same_but_put]. }
        assert (w1 = w2) as ->. { destruct r2 as [| | | |e]; [| | | |destruct e]; ret H1; reflexivity. }
        eapply contains_same_but; [|exact Hsb|exact Hm]. intros q <- id' c Hid'. unfold chunk_name. apply root_not_path. exact Hid'.
      + intros st1 E. destruct r2 as [| | | |e]; [| | | |destruct e]; ret H1; try discriminate; injection E as <-; auto. }
  destruct r1 as [st1|e| |]; try (apply exec_ret_inv in H; destruct H as [-> E]; injection E as -> ->; split; [auto|]; split; [discriminate|]; right; split; [exact Hm1|discriminate]).
  specialize (Hst _ eq_refl). assert (st_compression st1 = st_compression st /\ st_ctype st1 = st_ctype st) as [_ _] by (destruct Hst as [->| ->]; auto).
  apply exec_bind in H. destruct H as (w2 & r2 & H2 & H). apply exec_ret_inv in H. destruct H as [-> E]. injection E as -> ->.
  split; [exact Hst|].
  destruct (compression_eqb effective AS_IS) eqn:Ea.
  { unfold chunk_file_save in H2. rewrite Ea in H2. ret H2. split; [discriminate|]. right. split; [exact Hm1|discriminate]. }
  apply (save_exec codecs bound HC CHUNK_LIMIT_MAX (N.le_refl _)) with (p := p) in H2; [|assumption..].
  apply save_effect_map with (m := m) in H2; [|exact Hid| |exact Hm1].
  - destruct H2 as [H2 [H3|[H3 H4]]]; split; auto.
  - unfold form. destruct (st_compression st1); cbn; try discriminate. destruct effective; discriminate.
Qed.

Lemma store_has_exec f w st root id w' r : st_root st = Some root -> exec f w (store_has st id) w' r ->
  w' = w /\ forall b, r = Ok b -> b = present w root id.
Proof. intros Hr H. unfold store_has in H. rewrite Hr in H. apply test_exec in H. exact H. Qed.

(** ca_chunk_file_remove: afterwards the map has the chunk still, or doesn't; no other chunk is affected; success means it is gone. *)
Definition unlinked (w w' : world) (q : list N) : Prop := name_at w' q = name_at w q \/ name_at w' q = None.

Lemma unlink_exec2 f w root id s w' r : id_ok id = true -> no_slash s -> exec f w (chunk_file_unlink root id s) w' r ->
  same_but (fun q => q = chunk_id_format_path root id s \/ q = subdir root id) w w' /\
  (name_at w' (chunk_id_format_path root id s) = None \/ name_at w' (chunk_id_format_path root id s) = name_at w (chunk_id_format_path root id s)) /\
  (r = Ok tt \/ r = Err ENOENT -> name_at w' (chunk_id_format_path root id s) = None) /\
  (r = Ok tt -> exists n, name_at w (chunk_id_format_path root id s) = Some n /\ n <> NDir).
Proof.
  intros Hid Hsl H. split; [exact (unlink_exec _ _ _ _ _ _ _ Hsl H)|].
  set (path := chunk_id_format_path root id s) in *. assert (dirname path = subdir root id) as Ed by (apply dirname_path; exact Hsl).
  unfold chunk_file_unlink in H. fold path in H. apply exec_sys_inv in H. destruct H as (w1 & r1 & Hs & H).
  destruct (sys_unlink _ _ _ _ _ Hs) as [(_ & -> & e & -> & Hf)|Hr].
  - ret H. split; [right; reflexivity|]. split; [|discriminate]. intros [E|E]; [discriminate|]. injection E as ->. discriminate.
  - destruct (name_at w path) as [[| |i]|] eqn:En; destruct Hr as [-> ->].
    + ret H. split; [right; congruence|]. split; [intros [E|E]; discriminate|discriminate].
    + apply exec_sys_inv in H. destruct H as (w2 & r2 & Hs2 & H). ret H. apply rmdir_same in Hs2. rewrite Ed in Hs2. destruct Hs2 as [_ Hs2].
      assert (name_at w2 path = None) as E. { rewrite Hs2; [rewrite name_del, beq_refl; reflexivity|]. unfold path. apply subdir_not_path. exact Hid. }
      split; [left; exact E|]. split; [auto|]. intros _. eexists. split; [reflexivity|discriminate].
    + apply exec_sys_inv in H. destruct H as (w2 & r2 & Hs2 & H). ret H. apply rmdir_same in Hs2. rewrite Ed in Hs2. destruct Hs2 as [_ Hs2].
      assert (name_at w2 path = None) as E. { rewrite Hs2; [rewrite name_del, beq_refl; reflexivity|]. unfold path. apply subdir_not_path. exact Hid. }
      split; [left; exact E|]. split; [auto|]. intros _. eexists. split; [reflexivity|discriminate].
    + ret H. split; [left; exact En|]. split; [auto|discriminate].
Qed.

Lemma remove_map f w root id m w' r :
  id_ok id = true -> contains codecs w root m -> exec f w (chunk_file_remove root id) w' r ->
  (contains codecs w' root m \/ contains codecs w' root (update m id None)) /\
  (r = Ok tt -> contains codecs w' root (update m id None)).
Proof.
  intros Hid Hm H. unfold chunk_file_remove in H. apply exec_bind in H. destruct H as (w1 & r1 & H1 & H).
  apply unlink_exec2 in H1; [|exact Hid|intros []]. destruct H1 as (S1 & O1 & N1 & P1).
  change (chunk_id_format_path root id []) with (chunk_name root id UNCOMPRESSED) in *.
  set (U := chunk_name root id UNCOMPRESSED) in *. set (C := chunk_name root id COMPRESSED).
  assert (U <> C) as HUC. { unfold U, C, chunk_name. intros E. apply path_inj in E; [|assumption..]. destruct E as [_ E]. discriminate. }
  (* from w to a w2 in which only names of this chunk went away *)
  assert (forall w2, same_but (fun q => q = U \/ q = C \/ q = subdir root id) w w2 ->
            (name_at w2 U = None \/ name_at w2 U = name_at w U) -> (name_at w2 C = None \/ name_at w2 C = name_at w C) ->
            (contains codecs w2 root m \/ contains codecs w2 root (update m id None)) /\
            (name_at w2 U = None -> name_at w2 C = None -> contains codecs w2 root (update m id None))) as Hend.
  { intros w2 Hs HU HCo. pose proof (files_kept_same _ _ _ Hs) as Hk. destruct Hs as [_ Hs].
    assert (forall id' c, id_ok id' = true -> id' <> id -> name_at w2 (chunk_name root id' c) = name_at w (chunk_name root id' c)) as Hother.
    { intros id' c Hid' Hne. apply Hs. intros [E|[E|E]].
      - unfold U, chunk_name in E. apply path_inj in E; [|assumption..]. destruct E; congruence.
      - unfold C, chunk_name in E. apply path_inj in E; [|assumption..]. destruct E; congruence.
      - symmetry in E. revert E. apply subdir_not_chunk. exact Hid'. }
    assert (forall mm, (forall id', id' <> id -> mm id' = m id') ->
       match mm id with Some p' => holds codecs w2 root id p' | None => present w2 root id = false end -> contains codecs w2 root mm) as Hbuild.
    { intros mm Hmm Hat id' Hid'. destruct (beq id id') eqn:Eb.
      - apply beq_eq in Eb. subst id'. exact Hat.
      - apply beq_neq in Eb. assert (id' <> id) as Hne by congruence. rewrite Hmm by exact Hne. specialize (Hm id' Hid').
        destruct (m id'); [eapply holds_kept; eauto|]. rewrite (present_kept w w2); [exact Hm|]. intros c. apply Hother; assumption. }
    assert (name_at w2 U = None -> name_at w2 C = None -> contains codecs w2 root (update m id None)) as Hgone.
    { intros E1 E2. apply Hbuild.
      - intros id' Hne. unfold update. assert (beq id id' = false) as -> by (apply beq_neq; congruence). reflexivity.
      - unfold update. rewrite beq_refl. unfold present. fold U C. rewrite E1, E2. reflexivity. }
    split; [|exact Hgone].
    destruct (name_at w2 U) eqn:E1, (name_at w2 C) eqn:E2; try (right; apply Hgone; reflexivity).
    all: left; apply Hbuild; [reflexivity|]; specialize (Hm id Hid).
    all: assert (forall c, name_at w2 (chunk_name root id c) = None \/ name_at w2 (chunk_name root id c) = name_at w (chunk_name root id c)) as Hall.
    all: try (intros []; [fold U|fold C|change (chunk_name root id AS_IS) with C]; [destruct HU as [Hx|Hx]; rewrite ?E1; auto|destruct HCo as [Hx|Hx]; rewrite ?E2; auto..]).
    all: destruct (m id) as [p|]; [|pose proof (present_false w root id UNCOMPRESSED Hm (or_introl eq_refl)) as X1;
            pose proof (present_false w root id COMPRESSED Hm (or_intror eq_refl)) as X2; fold U in X1; fold C in X2; destruct HU, HCo; congruence].
    all: destruct Hm as [_ Hm]; split.
    all: try (intros c Hc; destruct (Hall c) as [Hx|Hx]; [left; exact Hx|]; destruct (Hm c Hc) as [Hy|(x & Hy & Hr)]; [left; congruence|right]; exists x; split; [eapply file_kept; eauto|exact Hr]).
    - exists UNCOMPRESSED. destruct (Hm UNCOMPRESSED (or_introl eq_refl)) as [Hy|(x & Hy & Hr)].
      + exfalso. fold U in Hy. destruct HU; congruence.
      + exists x. fold U in Hy |- *. eapply file_kept; [exact Hk| |exact Hy]. destruct HU; congruence.
    - exists UNCOMPRESSED. destruct (Hm UNCOMPRESSED (or_introl eq_refl)) as [Hy|(x & Hy & Hr)].
      + exfalso. fold U in Hy. destruct HU; congruence.
      + exists x. fold U in Hy |- *. eapply file_kept; [exact Hk| |exact Hy]. destruct HU; congruence.
    - exists COMPRESSED. destruct (Hm COMPRESSED (or_intror eq_refl)) as [Hy|(x & Hy & Hr)].
      + exfalso. fold C in Hy. destruct HCo; congruence.
      + exists x. fold C in Hy |- *. eapply file_kept; [exact Hk| |exact Hy]. destruct HCo; congruence. }
  assert (same_but (fun q => q = U \/ q = C \/ q = subdir root id) w w1) as S1' by (eapply same_but_weaken; [|exact S1]; intros q [->| ->]; auto).
  assert (name_at w1 C = name_at w C) as EC1. { destruct S1 as [_ S1]. apply S1. intros [E|E]; [congruence|]. symmetry in E. revert E. apply subdir_not_chunk. exact Hid. }
  assert (r1 = Ok tt \/ r1 = Err ENOENT -> exec f w1 (chunk_file_unlink root id cacnk) w' r ->
     (contains codecs w' root m \/ contains codecs w' root (update m id None)) /\ (r = Ok tt -> contains codecs w' root (update m id None))) as Hgo.
  { intros Hr H2. apply unlink_exec2 in H2; [|exact Hid|apply cacnk_no_slash]. change (chunk_id_format_path root id cacnk) with C in H2.
    destruct H2 as (S2 & O2 & N2 & _).
    assert (name_at w' U = name_at w1 U) as EU. { destruct S2 as [_ S2]. apply S2. intros [E|E]; [congruence|]. symmetry in E. revert E. apply subdir_not_chunk. exact Hid. }
    destruct (Hend w') as [A B].
    - eapply same_but_trans; [exact S1'|]. eapply same_but_weaken; [|exact S2]. intros q [->| ->]; auto.
    - left. rewrite EU. apply N1. exact Hr.
    - rewrite <- EC1. exact O2.
    - split; [exact A|]. intros Hok. apply B; [rewrite EU; apply N1; exact Hr|apply N2; auto]. }
  destruct r1 as [[]|e| |].
  - apply Hgo; auto.
  - destruct e; try (apply Hgo; [auto|exact H]); ret H; (split; [|discriminate]); apply (Hend w1 S1' O1 (or_intror EC1)).
  - ret H. split; [|discriminate]. apply (Hend w1 S1' O1 (or_intror EC1)).
  - ret H. split; [|discriminate]. apply (Hend w1 S1' O1 (or_intror EC1)).
Qed.
End Put.
