(** Proofs about SyncCache.v, 4: runs. *)
From Verif Require Import Base Chunker ChunkerSpec ChunkerProofs SyncCache SyncCacheSpec SyncCacheProofs1 SyncCacheProofs2 SyncCacheProofs3.
Local Open Scope N_scope.

Section Tree.
Context (digest : list N -> list N) (c : cfg) (quick : bool) (tree : list region) (Hc : cfg_ok c = true) (Htree : tree_ok tree).
Context (answered : list N -> Prop).
Notation total := (len (stream tree)).
Notation core := (core digest c tree answered).
Notation ready := (ready tree).
Notation fresh := (fresh tree).
Notation bufat := (bufat tree).
Notation inv := (inv digest c tree answered).
Notation meas := (meas tree).
Notation steps_left := (steps_left tree).
Notation start_at := (start_at tree).
Notation pending := (pending digest tree answered).

Section Ask.
Context (ask : loc -> answer).
Context (Htrue : forall l o id, ask l = Hit o id -> truthful digest tree l o id).
Context (Hknown : forall l o id, ask l = Hit o id -> answered id).
Context (Hinside : forall l o id, ask l = Hit o id -> ~ inside_block tree o).
Notation goes_on := (goes_on digest c tree answered ask).

Lemma goes_on_le M M' x : goes_on M x -> M <= M' -> goes_on M' x.
Proof. unfold SyncCacheProofs3.goes_on. destruct (snd x); try tauto. intros [A B] Hle. split; [exact A|lia]. Qed.

(** On data, when nothing is asked *)
Lemma on_data_idle s ps E : core ps s -> s_item s = None -> s_state s = COff \/ s_state s = CIdle -> fresh (s_enc s) E -> bufat (cached_in s) (len (concat ps)) s E ->
  goes_on (steps_left (len (concat ps)) (1 + (total - E))) (on_data digest c quick tree ask s).
Proof.
  intros Hcore Hit Hst (i & off & r & He & Hi & Hoff & ->) Hb.
  assert (Hon : on_data digest c quick tree ask s = take_data digest c quick tree s None 0) by (unfold on_data; destruct Hst as [-> | ->]; reflexivity).
  rewrite Hon. pose proof (take_data_ok digest c quick tree Hc Htree answered ask Htrue Hknown Hinside s ps i off 0 r None 0 0 Hcore Hit Hst He Hi) as T.
  rewrite !N.add_0_r in T. apply T; [left; repeat split; exact Hoff|exact Hb|left; split; reflexivity].
Qed.

Lemma empty_buffer q s E : bufat true q s E -> s_buf s = [] -> q = E /\ s_borig s = [].
Proof.
  intros [B1 B2 B3 B4] Hnil. rewrite Hnil in *. change (@len N []) with 0 in *. split; [lia|]. destruct (B4 eq_refl) as [A B].
  apply pos_bytes_0; [eapply describes_pos, A|exact B].
Qed.

Lemma on_data_check s ps E : core ps s -> s_item s = None -> s_state s = CCheck -> fresh (s_enc s) E -> bufat true (len (concat ps)) s E -> s_buf s = [] ->
  goes_on (steps_left (len (concat ps)) (2 * total + 5)) (on_data digest c quick tree ask s).
Proof.
  intros Hcore Hit Hst (i & off & r & He & Hi & Hoff & ->) Hb Hnil. destruct (empty_buffer _ _ _ Hb Hnil) as [Hp Hbo].
  unfold on_data. rewrite Hst, Hnil, Hbo. change (0 <? len (@nil N)) with false. change (0 <? origin_bytes []) with false. cbn [orb]. rewrite He.
  rewrite (location_ok tree i off 0 false r Hi).
  assert (Hstart : start_at (len (concat ps)) (whereis r off)).
  { exists r. split; [rewrite Hp; apply (whereis_here tree i r off Hi)|]. split; [exact Hoff|reflexivity]. }
  destruct (cache_get_cases ask (whereis r off)) as [Eg|[(it & Eg)|(e & Eg)]]; rewrite Eg.
  - set (s1 := set_state s CIdle).
    assert (Hcore1 : core ps s1) by (apply (core_same digest c tree answered ps s); [exact Hcore|reflexivity..]).
    pose proof (take_data_ok digest c quick tree Hc Htree answered ask Htrue Hknown Hinside s1 ps i off 0 r (Some (whereis r off)) 0 0 Hcore1 Hit (or_intror eq_refl) He Hi) as T.
    rewrite !N.add_0_r in T. eapply goes_on_le; [apply T|].
    + left. repeat split; exact Hoff.
    + destruct Hb. constructor; assumption.
    + right. exists (whereis r off). cbn [whereis l_key l_table l_off]. repeat split.
    + unfold SyncCacheProofs3.steps_left. lia.
  - destruct (cache_get_ok digest c tree answered ask Htrue Hknown Hinside _ _ _ Hstart Eg) as (Est & Hpend & (h & more & Eo & _ & _) & _).
    set (s1 := set_state (set_item s (Some it)) CVerify).
    assert (Hcore1 : core ps s1) by (apply (core_same digest c tree answered ps s); [exact Hcore|reflexivity..]).
    eapply goes_on_le; [eapply (verify_ok digest c quick tree Hc Htree answered ask Htrue Hknown Hinside s1 ps it 0 i off r Hcore1 eq_refl eq_refl He Hi Hoff)|].
    + rewrite N.add_0_r. destruct Hb. constructor; assumption.
    + exact Hnil.
    + rewrite Est. exact Hstart.
    + exact Hpend.
    + rewrite Eo. discriminate.
    + unfold SyncCacheProofs3.steps_left. lia.
  - exists (whereis r off). exact Eg.
Qed.

Lemma on_data_verify s ps it v E : core ps s -> s_item s = Some it -> s_state s = CVerify -> fresh (s_enc s) E -> bufat true (len (concat ps) + v) s E -> s_buf s = [] ->
  start_at (len (concat ps)) (i_start it) -> pending (len (concat ps)) v it -> i_origin it <> [] ->
  goes_on (steps_left (len (concat ps)) (total + 4 + (total - E))) (on_data digest c quick tree ask s).
Proof.
  intros Hcore Hit Hst (i & off & r & He & Hi & Hoff & ->) Hb Hnil Hstart Hpend Hne.
  unfold on_data. rewrite Hst, Hit. rewrite He at 1. rewrite (location_ok tree i off 0 false r Hi).
  apply (verify_ok digest c quick tree Hc Htree answered ask Htrue Hknown Hinside s ps it v i off r); assumption.
Qed.

(** The end: everything was written. *)
Definition complete (s : sync) : Prop := exists ps, core ps s /\ concat ps = stream tree.

Lemma sub_all : sub tree 0 total = stream tree.
Proof. unfold sub. rewrite dropN_0. apply takeN_all. lia. Qed.

Lemma write_final_ok cached s ps : core ps s -> bufat cached (len (concat ps)) s total -> complete (write_final digest cached s).
Proof.
  intros Hcore [B1 B2 B3 B4]. unfold write_final. destruct (N.eqb_spec (len (s_buf s)) 0) as [E0|E0].
  - exists ps. split; [exact Hcore|]. rewrite (k_prefix _ _ _ _ _ _ Hcore). replace (len (concat ps)) with total by lia. apply sub_all.
  - exists (ps ++ [s_buf s]).
    assert (Hcore' : core (ps ++ [s_buf s]) (write_one_chunk digest cached s (s_buf s) (s_borig s))).
    { apply (core_more digest c tree answered ps s (s_buf s) true); try assumption; try reflexivity.
      - intros E. rewrite E in E0. apply E0. reflexivity.
      - lia.
      - left. reflexivity.
      - cbn [write_one_chunk s_puts]. destruct cached; [|apply Hcore]. apply Forall_app. split; [apply Hcore|]. constructor; [|constructor].
        destruct (B4 eq_refl) as [A B]. split; cbn [fst snd].
        + intros E. rewrite E in B. change (origin_bytes []) with 0 in B. lia.
        + exists (len (concat ps)). split; [exact A|]. rewrite covers_bytes, B, <- B1. reflexivity.
      - apply Hcore. }
    split; [exact Hcore'|]. rewrite (k_prefix _ _ _ _ _ _ Hcore'). rewrite concat_snoc, len_app, B2. apply sub_all.
Qed.

(** What a step does *)
Definition steps (M : N) (x : sync * outcome) : Prop :=
  match snd x with
  | More => inv (fst x) /\ meas (fst x) < M
  | Failed e => cache_fault ask e
  | Finished => complete (fst x)
  | Died => False
  end.

Lemma goes_on_steps M M' x : goes_on M x -> M <= M' -> steps M' x.
Proof. intros H Hle. apply (goes_on_le M M' x) in H; [|exact Hle]. unfold SyncCacheProofs3.goes_on in H. unfold steps. destruct (snd x); try tauto; contradiction. Qed.

Lemma next_idle s ps E : core ps s -> s_item s = None -> s_state s = COff \/ s_state s = CIdle -> ready (s_enc s) E -> bufat (cached_in s) (len (concat ps)) s E ->
  steps (steps_left (len (concat ps)) (1 + (total - E))) (next_step digest c quick tree ask s).
Proof.
  intros Hcore Hit Hst Hr Hb. unfold next_step. destruct (encoder_step tree (s_enc s)) as [e t] eqn:Ee.
  pose proof (encoder_step_ok digest c tree Htree answered _ _ _ _ Hr Ee) as Ht. set (s1 := set_enc s e).
  assert (Hcore1 : core ps s1) by (apply (core_same digest c tree answered ps s); [exact Hcore|reflexivity..]).
  assert (Hb1 : bufat (cached_in s1) (len (concat ps)) s1 E) by (destruct Hb; constructor; assumption).
  destruct t.
  - eapply goes_on_steps; [apply (on_data_idle s1 ps E Hcore1 Hit Hst Ht Hb1)|]. lia.
  - destruct Ht as [_ ->]. change (s_state s1) with (s_state s). unfold steps. destruct Hst as [Hst|Hst]; rewrite Hst; cbn [fst snd];
      eapply write_final_ok; [exact Hcore1| |exact Hcore1|]; unfold cached_in in Hb1; change (s_state s1) with (s_state s) in Hb1; rewrite Hst in Hb1; exact Hb1.
Qed.

Theorem step_ok s : inv s -> steps (meas s) (step_encode digest c quick tree ask s).
Proof.
  intros (ps & Hcore & Hs). unfold SyncCacheProofs3.meas. rewrite (pos_core digest c tree answered ps s Hcore). unfold step_encode, rank.
  destruct (s_state s) eqn:Hst.
  - destruct Hs as (Hit & E & Hr & Hb). rewrite (ready_epos tree _ _ Hr). apply (next_idle s ps E); try assumption; [left; exact Hst|]. unfold cached_in. rewrite Hst. exact Hb.
  - destruct Hs as (Hit & E & Hr & Hb). rewrite (ready_epos tree _ _ Hr). apply (next_idle s ps E); try assumption; [right; exact Hst|]. unfold cached_in. rewrite Hst. exact Hb.
  - destruct Hs as (Hit & E & Hr & Hb). destruct (N.eqb_spec (len (s_buf s)) 0) as [E0|E0].
    + assert (Hnil : s_buf s = []) by (apply len_zero_nil, E0). unfold next_step. destruct (encoder_step tree (s_enc s)) as [e t] eqn:Ee.
      pose proof (encoder_step_ok digest c tree Htree answered _ _ _ _ Hr Ee) as Ht. set (s1 := set_enc s e).
      assert (Hcore1 : core ps s1) by (apply (core_same digest c tree answered ps s); [exact Hcore|reflexivity..]).
      assert (Hb1 : bufat true (len (concat ps)) s1 E) by (destruct Hb; constructor; assumption).
      destruct t.
      * eapply goes_on_steps; [apply (on_data_check s1 ps E); try assumption|]. lia.
      * destruct Ht as [_ ->]. change (s_state s1) with (s_state s). rewrite Hst. unfold steps. cbn [fst snd]. eapply write_final_ok; [exact Hcore1|exact Hb1].
    + destruct (b_orig _ _ _ _ _ Hb eq_refl) as [Hd Hbytes]. destruct (s_borig s) as [|l bo] eqn:Ebo; [change (origin_bytes []) with 0 in Hbytes; lia|].
      assert (Hstart : start_at (len (concat ps)) l).
      { inversion Hd as [|p' l' o' r' Ha Hat Has Hal Hdo]; subst p' l' o'. exists r'. split; [exact Ha|]. split; [lia|apply Hat; reflexivity]. }
      destruct (cache_get_cases ask l) as [Eg|[(it & Eg)|(e & Eg)]]; rewrite Eg.
      * set (s1 := set_state s CIdle).
        assert (Hcore1 : core ps s1) by (apply (core_same digest c tree answered ps s); [exact Hcore|reflexivity..]).
        assert (Hb1 : bufat (cached_in s1) (len (concat ps)) s1 E) by (destruct Hb; constructor; assumption).
        pose proof (next_idle s1 ps E Hcore1 Hit (or_intror eq_refl) Hr Hb1) as T. unfold steps in *. destruct (snd _); try exact T. destruct T as [A B]. split; [exact A|].
        eapply N.lt_le_trans; [exact B|]. unfold SyncCacheProofs3.steps_left. lia.
      * destruct (cache_get_ok digest c tree answered ask Htrue Hknown Hinside _ _ _ Hstart Eg) as (Est & Hpend & _ & _).
        unfold steps. cbn [fst snd]. split.
        -- exists ps. split; [apply (core_same digest c tree answered ps s); [exact Hcore|reflexivity..]|]. cbn [set_state s_state]. exists it, 0, E.
           split; [reflexivity|]. rewrite Est. split; [exact Hstart|]. split; [exact Hr|]. rewrite N.add_0_r. split; [destruct Hb; constructor; assumption|exact Hpend].
        -- unfold SyncCacheProofs3.meas, pos, rank. cbn [set_state set_item s_state s_index s_buf s_enc].
           change (fold_right N.add 0 (map snd (s_index s))) with (pos s). rewrite (pos_core digest c tree answered ps s Hcore). apply (steps_here c).
           rewrite (ready_epos tree _ _ Hr). pose proof (b_end _ _ _ _ _ Hb). pose proof (b_le _ _ _ _ _ Hb). lia.
      * exists l. exact Eg.
  - destruct Hs as (it & v & E & Hit & Hstart & Hr & Hb & Hpend). rewrite Hit. rewrite (ready_epos tree _ _ Hr).
    destruct (N.eqb_spec (origin_bytes (i_origin it)) 0) as [E0|E0].
    { unfold steps. cbn [fst snd]. split.
      - exists ps. split; [apply (core_same digest c tree answered ps s); [exact Hcore|reflexivity..]|]. cbn [set_state s_state s_item]. exists it, v, E.
        split; [exact Hit|]. split; [exact Hstart|]. split; [exact Hr|]. split; [destruct Hb; constructor; assumption|]. split; [exact Hpend|].
        apply pos_bytes_0; [apply Hpend|exact E0].
      - unfold SyncCacheProofs3.meas, pos, rank. cbn [set_state s_state s_index]. change (fold_right N.add 0 (map snd (s_index s))) with (pos s).
        rewrite (pos_core digest c tree answered ps s Hcore). apply (steps_here c). lia. }
    destruct (N.eqb_spec (len (s_buf s)) 0) as [Eb|Eb].
    + assert (Hnil : s_buf s = []) by (apply len_zero_nil, Eb). unfold next_step. destruct (encoder_step tree (s_enc s)) as [e t] eqn:Ee.
      pose proof (encoder_step_ok digest c tree Htree answered _ _ _ _ Hr Ee) as Ht. set (s1 := set_enc s e).
      assert (Hcore1 : core ps s1) by (apply (core_same digest c tree answered ps s); [exact Hcore|reflexivity..]).
      assert (Hb1 : bufat true (len (concat ps) + v) s1 E) by (destruct Hb; constructor; assumption).
      destruct t.
      * eapply goes_on_steps; [apply (on_data_verify s1 ps it v E); try assumption|].
        -- intros Hz. rewrite Hz in E0. apply E0. reflexivity.
        -- rewrite Eb, N.add_0_r. lia.
      * destruct Ht as [_ ->]. change (s_state s1) with (s_state s). rewrite Hst. unfold steps. cbn [fst snd]. split.
        -- exists ps. split; [apply (core_same digest c tree answered ps s); [exact Hcore|reflexivity..]|]. cbn [set_state s_state s_item]. exists it. split; [exact Hit|exact Hstart].
        -- unfold SyncCacheProofs3.meas, pos, rank. cbn [set_state s_state s_index]. change (s_index s1) with (s_index s). change (fold_right N.add 0 (map snd (s_index s))) with (pos s).
           rewrite (pos_core digest c tree answered ps s Hcore). apply (steps_here c). lia.
    + destruct (b_orig _ _ _ _ _ Hb eq_refl) as [Hd Hbytes]. destruct (i_origin it) as [|a ao] eqn:Ea; [change (origin_bytes []) with 0 in E0; lia|].
      destruct (s_borig s) as [|b bo] eqn:Ebo; [change (origin_bytes []) with 0 in Hbytes; lia|].
      destruct (loc_equal a b) eqn:El.
      * pose proof (p_pos _ _ _ _ _ _ Hpend) as Hpos. rewrite Ea in Hpos. pose proof (Forall_inv Hpos) as Hap. cbv beta in Hap.
        pose proof (describes_pos _ _ _ _ Hd) as Hposb. pose proof (Forall_inv Hposb) as Hbp. cbv beta in Hbp.
        destruct (N.eqb_spec (l_size a) 0); [lia|]. destruct (N.eqb_spec (l_size b) 0); [lia|]. cbn [orb].
        unfold loc_equal in El. apply andb_prop in El. destruct El as [Ek Ef]. apply N.eqb_eq in Ek, Ef.
        inversion Hd as [|p' l' o' r' Hbh Hbt Hbs Hbl Hbd]; subst p' l' o'.
        set (sz := N.min (l_size a) (l_size b)). assert (Hsz : 0 < sz /\ sz <= l_size a /\ sz <= l_size b) by (unfold sz; lia). clearbody sz.
        assert (Hah : here tree (len (concat ps) + v) a r') by (destruct Hbh as (j & A & B & D); exists j; repeat split; [exact A|congruence|congruence]).
        destruct (advance_back tree Htree _ a ao sz r' Hah) as (o' & Ea' & Hpos' & Hsum' & Hback); [lia|lia|rewrite Ef; lia|exact Hpos|]. rewrite Ea'.
        rewrite origin_bytes_cons in Hbytes.
        destruct (describes_advance tree true _ _ sz Hd) as (bo' & Eb' & Hd' & Hbytes'); [rewrite origin_bytes_cons; lia|]. rewrite Eb'.
        rewrite origin_bytes_cons in Hbytes'.
        destruct (N.ltb_spec (len (s_buf s)) sz); [lia|]. unfold steps. cbn [fst snd].
        destruct Hb as [B1 B2 B3 B4].
        assert (Hld : len (dropN sz (s_buf s)) = len (s_buf s) - sz) by apply len_dropN.
        split.
        -- exists ps. split; [apply (core_same digest c tree answered ps s); [exact Hcore|reflexivity..]|]. cbn [set_item set_buffer s_state s_item s_enc]. rewrite Hst.
           exists (mkItem (i_start it) o' (i_id it) (i_size it)), (v + sz), E. split; [reflexivity|]. split; [exact Hstart|]. split; [exact Hr|]. split.
           ++ constructor; cbn [set_item set_buffer s_buf s_borig].
              ** rewrite Hld. rewrite B1 at 1. replace (len (s_buf s)) with (sz + (len (s_buf s) - sz)) at 1 by lia. rewrite sub_drop by lia. rewrite N.add_assoc. reflexivity.
              ** lia.
              ** exact B3.
              ** intros _. rewrite N.add_assoc. split; [exact Hd'|]. lia.
           ++ destruct Hpend as [P1 P2 P3 P4 P5]. rewrite Ea in P2, P5. constructor; cbn [i_origin i_size i_id]; [exact Hpos'|lia|exact P3|exact P4|].
              intros Hdd. apply P5. apply Hback. rewrite <- N.add_assoc. exact Hdd.
        -- unfold SyncCacheProofs3.meas, pos, rank. cbn [set_item set_buffer s_state s_index s_buf s_enc]. rewrite Hst. change (fold_right N.add 0 (map snd (s_index s))) with (pos s).
           rewrite (pos_core digest c tree answered ps s Hcore). apply (steps_here c). rewrite (ready_epos tree _ _ Hr), Hld. lia.
      * unfold steps. cbn [fst snd]. split.
        -- exists ps. split; [apply (core_same digest c tree answered ps s); [exact Hcore|reflexivity..]|]. cbn [set_state s_state s_item]. exists it. split; [exact Hit|exact Hstart].
        -- unfold SyncCacheProofs3.meas, pos, rank. cbn [set_state s_state s_index]. change (fold_right N.add 0 (map snd (s_index s))) with (pos s).
           rewrite (pos_core digest c tree answered ps s Hcore). apply (steps_here c). lia.
  - destruct Hs as (it & v & E & Hit & Hstart & Hr & Hb & Hpend & Enil). rewrite Hit. unfold steps. cbn [fst snd].
    destruct Hpend as [P1 P2 P3 P4 P5]. rewrite Enil in P2, P5. change (origin_bytes []) with 0 in P2.
    destruct (P5 ltac:(constructor)) as [Hid Hfit]. set (piece := sub tree (len (concat ps)) (i_size it)) in *.
    assert (Hlp : len piece = i_size it) by (apply len_sub; exact Hfit).
    set (s1 := set_state _ CCheck).
    assert (Hcore1 : core (ps ++ [piece]) s1).
    { apply (core_more digest c tree answered ps s piece false s1 Hcore).
      - rewrite Hlp. reflexivity.
      - intros Ez. rewrite Ez in Hlp. change (@len N []) with 0 in Hlp. lia.
      - lia.
      - unfold s1. cbn [set_state set_item write_one_cached_chunk s_index]. rewrite Hid, Hlp. reflexivity.
      - reflexivity.
      - right. rewrite Hid. exact P4.
      - apply Hcore.
      - apply Hcore. }
    assert (Hpos1 : len (concat (ps ++ [piece])) = len (concat ps) + v) by (rewrite concat_snoc, len_app, Hlp; lia).
    split.
    + exists (ps ++ [piece]). split; [exact Hcore1|]. cbn [s1 set_state s_state]. split; [reflexivity|]. exists E. split; [exact Hr|]. rewrite Hpos1. destruct Hb. constructor; assumption.
    + unfold SyncCacheProofs3.meas. rewrite (pos_core digest c tree answered _ _ Hcore1). apply (steps_further c); [lia|apply Hcore1|]. unfold rank. cbn [s1 set_state s_state]. lia.
  - destruct Hs as (it & Hit & (r & Hh & Hoff & Htab)). rewrite Hit. destruct (seek_ok c tree Htree _ _ _ Hh Hoff) as (e & -> & Hf).
    set (s1 := set_buffer _ chunker_init [] []).
    assert (Hcore1 : core ps s1).
    { destruct Hcore as [A B C D F G H]. constructor; cbn [s1 set_buffer set_state set_item set_enc s_index s_puts s_stored s_ck]; try assumption. exists []. apply rep_init; [exact Hc|reflexivity]. }
    eapply goes_on_steps; [apply (on_data_idle s1 ps (len (concat ps)) Hcore1 eq_refl (or_intror eq_refl) Hf)|].
    + constructor; cbn [s1 set_buffer s_buf s_borig]; change (@len N []) with 0.
      * reflexivity.
      * lia.
      * apply Hcore.
      * intros _. split; [constructor|reflexivity].
    + unfold SyncCacheProofs3.steps_left. lia.
Qed.
End Ask.

Lemma inv_start use : inv (sync_start use).
Proof.
  assert (Hcore : core [] (sync_start use)).
  { constructor; cbn [sync_start s_index s_puts s_stored s_ck]; try constructor; try reflexivity; try lia. 
    - change (len (concat (@nil (list N)))) with 0. lia.
    - exists []. apply rep_init; [exact Hc|reflexivity]. }
  exists []. split; [exact Hcore|].
  assert (Hb : forall b, bufat b (len (concat (@nil (list N)))) (sync_start use) 0).
  { intros b. constructor; cbn [sync_start s_buf s_borig]; change (@len N []) with 0; try reflexivity; try lia. intros _. split; [constructor|reflexivity]. }
  destruct use; cbn [sync_start s_state]; (split; [reflexivity|]; exists 0; split; [left; split; reflexivity|apply Hb]).
Qed.

(** ** Runs *)
Definition asks_ok (asks : list (loc -> answer)) : Prop :=
  Forall (fun ask => forall l o id, ask l = Hit o id -> truthful digest tree l o id /\ answered id /\ ~ inside_block tree o) asks.

Theorem run_ok asks : asks_ok asks -> forall s, inv s ->
  match run digest c quick tree asks s with
  | (s', More) => inv s' /\ N.of_nat (length asks) <= meas s
  | (s', Finished) => complete s'
  | (s', Failed e) => exists ask, In ask asks /\ cache_fault ask e
  | (s', Died) => False
  end.
Proof.
  induction asks as [|ask asks IH]; intros Ha s Hi; cbn [run]; [split; [exact Hi|cbn; lia]|].
  inversion Ha as [|x y H1 H2]; subst. 
  pose proof (step_ok ask (fun l o id H => proj1 (H1 l o id H)) (fun l o id H => proj1 (proj2 (H1 l o id H))) (fun l o id H => proj2 (proj2 (H1 l o id H))) s Hi) as Hs.
  unfold steps in Hs. destruct (step_encode digest c quick tree ask s) as [s' o]. cbn [fst snd] in Hs. destruct o.
  - destruct Hs as [Hi' Hm]. specialize (IH H2 s' Hi'). destruct (run digest c quick tree asks s') as [s'' [| |e|]]; try assumption.
    + destruct IH as [A B]. split; [exact A|]. cbn [length]. lia.
    + destruct IH as (a & A & B). exists a. split; [right; exact A|exact B].
  - exact Hs.
  - exists ask. split; [left; reflexivity|exact Hs].
  - exact Hs.
Qed.
End Tree.
