(** Proofs about SyncCache.v, 3: every step. *)
From Verif Require Import Base Chunker ChunkerSpec ChunkerProofs SyncCache SyncCacheSpec SyncCacheProofs1 SyncCacheProofs2.
Local Open Scope N_scope.

Section Tree.
Context (digest : list N -> list N) (c : cfg) (quick : bool) (tree : list region) (Hc : cfg_ok c = true) (Htree : tree_ok tree).
Context (answered : list N -> Prop).
Notation total := (len (stream tree)).
Notation core := (core digest c tree answered).
Notation ready := (ready tree).
Notation fresh := (fresh tree).
Notation bufat := (bufat tree).

Definition start_at (p : N) (l : loc) : Prop := exists r, here tree p l r /\ l_off l < len (r_data r) /\ l_table l = r_table r.

(** An item of the cache of which [v] bytes were found in the archive, from [p] on. *)
Record pending (p v : N) (it : item) : Prop := {
  p_pos : Forall (fun x => 0 < l_size x) (i_origin it);
  p_sum : v + origin_bytes (i_origin it) = i_size it;
  p_size : 0 < i_size it;
  p_known : answered (i_id it);
  p_true : describes tree false (p + v) (i_origin it) -> digest (sub tree p (i_size it)) = i_id it /\ p + i_size it <= total }.

Definition inv (s : sync) : Prop :=
  exists ps, core ps s /\
  match s_state s with
  | COff => s_item s = None /\ exists E, ready (s_enc s) E /\ bufat false (len (concat ps)) s E
  | CIdle | CCheck => s_item s = None /\ exists E, ready (s_enc s) E /\ bufat true (len (concat ps)) s E
  | CVerify => exists it v E, s_item s = Some it /\ start_at (len (concat ps)) (i_start it) /\ ready (s_enc s) E /\
                              bufat true (len (concat ps) + v) s E /\ pending (len (concat ps)) v it
  | CSucceeded => exists it v E, s_item s = Some it /\ start_at (len (concat ps)) (i_start it) /\ ready (s_enc s) E /\
                              bufat true (len (concat ps) + v) s E /\ pending (len (concat ps)) v it /\ i_origin it = []
  | CFailed => exists it, s_item s = Some it /\ start_at (len (concat ps)) (i_start it)
  end.

(** ** Steps left *)
Definition pos (s : sync) : N := fold_right N.add 0 (map snd (s_index s)).
Definition epos (e : enc) : N := match e with ENew => 0 | EAt i off got _ => base tree i + off + got | EEnd => total end.
Definition rank (s : sync) : N :=
  match s_state s with
  | COff | CIdle => 1 + (total - epos (s_enc s))
  | CSucceeded => 1
  | CFailed => total + 3
  | CVerify => total + 4 + (total + len (s_buf s) - epos (s_enc s))
  | CCheck => 2 * total + 5
  end.
Definition steps_left (p r : N) : N := (total - p) * (2 * total + 6) + r.
Definition meas (s : sync) : N := steps_left (pos s) (rank s).

Lemma pos_core ps s : core ps s -> pos s = len (concat ps).
Proof.
  intros H. unfold pos. rewrite (k_index _ _ _ _ _ _ H). unfold listing. clear H. induction ps as [|p ps IH]; [reflexivity|].
  cbn [map fold_right concat snd]. rewrite IH, len_app. reflexivity.
Qed.

Lemma ready_epos e E : ready e E -> epos e = E.
Proof. intros [[-> ->]|(i & off & got & sk & r & -> & _ & _ & _ & _ & ->)]; reflexivity. Qed.

Lemma steps_further p p' r r' : p < p' -> p' <= total -> r' < 2 * total + 6 -> steps_left p' r' < steps_left p r.
Proof.
  intros H1 H2 H3. unfold steps_left. set (w := 2 * total + 6) in *. replace (total - p) with (total - p' + (p' - p)) by lia.
  rewrite N.mul_add_distr_r. assert (w <= (p' - p) * w) by nia. lia.
Qed.
Lemma steps_here p r r' : r' < r -> steps_left p r' < steps_left p r.
Proof. unfold steps_left. lia. Qed.

(** ** The cache *)
Context (ask : loc -> answer).
Context (Htrue : forall l o id, ask l = Hit o id -> truthful digest tree l o id).
Context (Hknown : forall l o id, ask l = Hit o id -> answered id).
Context (Hinside : forall l o id, ask l = Hit o id -> ~ inside_block tree o).

(** Failing is the cache's fault. *)
Definition cache_fault (e : errno) : Prop := exists l, cache_get ask l = Err e.

Lemma cache_get_cases l : cache_get ask l = Ok None \/ (exists it, cache_get ask l = Ok (Some it)) \/ exists e, cache_get ask l = Err e.
Proof.
  unfold cache_get. destruct (ask l) as [o id| |e]; [|left; reflexivity|right; right; eexists; reflexivity].
  destruct (origin_bytes o =? 0); [right; right; eexists; reflexivity|]. destruct o as [|h o]; [right; right; eexists; reflexivity|].
  destruct (loc_equal l h); [right; left; eexists; reflexivity|right; right; eexists; reflexivity].
Qed.

Lemma cache_get_ok p l it : start_at p l -> cache_get ask l = Ok (Some it) ->
  i_start it = l /\ pending p 0 it /\ (exists h more, i_origin it = h :: more /\ l_key h = l_key l /\ l_off h = l_off l) /\ ~ inside_block tree (i_origin it).
Proof.
  intros (r & Hh & Ho & Ht) H. unfold cache_get in H. destruct (ask l) as [o id| |e] eqn:Ea; try discriminate.
  destruct (N.eqb_spec (origin_bytes o) 0) as [E0|E0]; [discriminate|]. destruct o as [|h o]; [discriminate|]. destruct (loc_equal l h) eqn:El; [|discriminate].
  injection H as <-. cbn [i_start i_origin]. split; [reflexivity|]. split; [|split].
  - destruct (Htrue _ _ _ Ea) as [Hpos Htr]. constructor; cbn [i_origin i_size i_id].
    + exact Hpos.
    + reflexivity.
    + rewrite origin_bytes_cons in E0. lia.
    + eapply Hknown, Ea.
    + rewrite N.add_0_r. intros Hd. change (l_size h + origin_bytes o) with (origin_bytes (h :: o)). split; [|apply (describes_le tree false); [exact Hd|discriminate]]. rewrite <- covers_bytes. eapply Htr; eassumption.
  - exists h, o. unfold loc_equal in El. apply andb_prop in El. destruct El as [A B]. apply N.eqb_eq in A, B. repeat split; congruence.
  - eapply Hinside, Ea.
Qed.

(** What a step leaves: more to do, and less than before, or the cache is broken. *)
Definition goes_on (M : N) (x : sync * outcome) : Prop :=
  match snd x with
  | More => inv (fst x) /\ meas (fst x) < M
  | Failed e => cache_fault e
  | Finished | Died => False
  end.

Definition cached_in (s : sync) : bool := match s_state s with COff => false | _ => true end.

(** ** Taking data *)
Lemma take_data_ok s ps i off got r l extra k :
  core ps s -> s_item s = None -> s_state s = COff \/ s_state s = CIdle ->
  s_enc s = EAt i off got false -> nth_error tree i = Some r -> 
  (got = 0 /\ off < len (r_data r) /\ extra = 0 /\ k = 0 \/ 0 < got /\ off + got <= len (r_data r) /\ (r_payload r = false -> off + got = len (r_data r)) /\ extra < got /\ k = got) ->
  bufat (cached_in s) (len (concat ps)) s (base tree i + off + extra) ->
  (l = None /\ extra = 0 \/ exists l0, l = Some l0 /\ l_key l0 = r_key r /\ l_table l0 = r_table r /\ l_off l0 = off + extra) ->
  goes_on (steps_left (len (concat ps)) (1 + (total - (base tree i + off + extra)))) (take_data digest c quick tree s l extra).
Proof.
  intros Hcore Hit Hst He Hi Hk Hb Hl. unfold take_data. fold (cached_in s).
  assert (Hdata : exists k, encoder_data quick tree (s_enc s) None true = (EAt i off k false, Ok (sub tree (base tree i + off) k)) /\
                  0 < k /\ off + k <= len (r_data r) /\ (r_payload r = false -> off + k = len (r_data r)) /\ extra < k).
  { rewrite He. destruct Hk as [(-> & Ho & -> & _)|(Hg & Hle & Hpl & Hx & _)].
    - destruct (data_ok c quick tree i off None true r Hi Ho ltac:(discriminate)) as (k' & E & A & B & D & _). exists k'. rewrite E, andb_false_r. repeat split; try assumption.
    - exists got. rewrite (data_again c quick tree i off got r Hi Hg Hle). repeat split; assumption. }
  clear Hk k. destruct Hdata as (k & -> & Hk0 & Hkle & Hkpl & Hx). set (s1 := set_enc s _).
  assert (Hloc : exists l1, (match l with Some l => Some l | None => encoder_location tree (s_enc s1) end) = Some l1 /\ l_key l1 = r_key r /\ l_table l1 = r_table r /\ l_off l1 = off + extra).
  { destruct Hl as [[-> ->]|(l0 & -> & A)].
    - unfold s1. cbn [set_enc s_enc]. rewrite (location_ok tree i off k false r Hi). eexists. split; [reflexivity|]. cbn [whereis l_key l_table l_off]. repeat split. lia.
    - exists l0. split; [reflexivity|exact A]. }
  destruct Hloc as (l1 & -> & Hlk & Hlt & Hlo).
  pose proof (base_le tree i r Hi) as Hbase.
  assert (Hdrop : dropN extra (sub tree (base tree i + off) k) = sub tree (base tree i + off + extra) (k - extra)).
  { replace k with (extra + (k - extra)) at 1 by lia. apply sub_drop. lia. }
  rewrite Hdrop. rewrite len_sub by lia.
  assert (Hcore1 : core ps s1) by (apply (core_same digest c tree answered ps s); [exact Hcore|reflexivity..]).
  assert (Hb1 : bufat (cached_in s) (len (concat ps)) s1 (base tree i + off + extra)) by (destruct Hb; constructor; assumption).
  destruct (SyncCacheProofs2.write_chunks_ok digest c tree Hc Htree answered (cached_in s) s1 ps (k - extra) (base tree i + off + extra) (loc_resize (k - extra) l1) r)
    as (s2 & ps2 & E2 & Hcore2 & Hb2 & He2 & Hi2 & Hs2); try assumption.
  - lia.
  - exists i. cbn [loc_resize l_key l_off]. repeat split; [exact Hi|congruence|lia].
  - cbn [loc_resize l_off]. lia.
  - reflexivity.
  - rewrite E2. cbn [goes_on fst snd]. unfold goes_on. cbn [fst snd].
    replace (base tree i + off + extra + (k - extra)) with (base tree i + off + k) in Hb2 by lia.
    assert (Hr2 : ready (s_enc s2) (base tree i + off + k)).
    { right. exists i, off, k, false, r. rewrite He2. repeat split; assumption. }
    assert (Hit2 : s_item s2 = None) by (rewrite Hi2; exact Hit).
    assert (Hs1 : s_state s1 = s_state s) by reflexivity. rewrite Hs1 in Hs2.
    split.
    + exists ps2. split; [exact Hcore2|]. unfold cached_in in *. destruct Hs2 as [[_ ->]|[_ ->]]; destruct Hst as [Hst|Hst]; rewrite Hst in *; cbv iota in *;
        (split; [exact Hit2|]; eexists; split; [exact Hr2|exact Hb2]).
    + unfold meas. rewrite (pos_core ps2 s2 Hcore2). unfold rank. rewrite (ready_epos _ _ Hr2). destruct Hs2 as [[-> Hs2]|[Hfar Hs2]].
      * rewrite Hs2. apply steps_here. destruct Hst as [Hst|Hst]; rewrite Hst; lia.
      * apply steps_further; [exact Hfar|apply Hcore2|]. rewrite Hs2. unfold cached_in. destruct Hst as [Hst|Hst]; rewrite Hst; lia.
Qed.

(** ** Verifying *)
Lemma verify_ok s ps it v i off r : core ps s -> s_item s = Some it -> s_state s = CVerify -> s_enc s = EAt i off 0 false -> nth_error tree i = Some r -> off < len (r_data r) ->
  bufat true (len (concat ps) + v) s (base tree i + off) -> s_buf s = [] -> start_at (len (concat ps)) (i_start it) -> pending (len (concat ps)) v it -> i_origin it <> [] ->
  goes_on (steps_left (len (concat ps)) (total + 4 + (total - (base tree i + off)))) (verify_data digest c quick tree ask s it (whereis r off)).
Proof.
  intros Hcore Hit Hst He Hi Hoff Hb Hnil Hstart Hpend Hne. unfold verify_data. rewrite Hnil. change (0 <? len (@nil N)) with false. cbv iota.
  destruct (i_origin it) as [|h more] eqn:Eo; [contradiction|]. pose proof (base_le tree i r Hi) as Hbase.
  destruct (loc_equal (whereis r off) h) eqn:El; cbn [negb].
  2: { unfold goes_on. cbn [fst snd]. split.
       - exists ps. split; [apply (core_same digest c tree answered ps s); [exact Hcore|reflexivity..]|]. cbn [set_state s_state]. exists it. split; [exact Hit|exact Hstart].
       - unfold meas. cbn [set_state s_state s_index]. unfold pos, rank. cbn [set_state s_state s_index].
         change (fold_right N.add 0 (map snd (s_index s))) with (pos s). rewrite (pos_core ps s Hcore). apply steps_here. lia. }
  pose proof (p_pos _ _ _ Hpend) as Hpos. rewrite Eo in Hpos. pose proof (Forall_inv Hpos) as Hh. cbv beta in Hh.
  destruct (N.eqb_spec (l_size h) 0) as [E0|_]; [lia|].
  unfold loc_equal in El. apply andb_prop in El. destruct El as [Ek Ef]. apply N.eqb_eq in Ek, Ef. cbn [whereis l_key l_off] in Ek, Ef.
  rewrite He. destruct (data_ok c quick tree i off (Some (l_size h)) false r Hi Hoff) as (k & -> & Hk0 & Hkle & Hkpl & Hksug); [intros E; injection E as E; lia|].
  set (sk := r_payload r && negb false && quick). set (s1 := set_enc s _). cbv iota.
  assert (Hlen : len (sub tree (base tree i + off) k) = k) by (apply len_sub; lia). rewrite Hlen.
  assert (Hcore1 : core ps s1) by (apply (core_same digest c tree answered ps s); [exact Hcore|reflexivity..]).
  assert (Hready : forall s', s_enc s' = s_enc s1 -> ready (s_enc s') (base tree i + off + k)).
  { intros s' ->. right. exists i, off, k, sk, r. repeat split; assumption. }
  destruct Hb as [B1 B2 B3 B4]. destruct (B4 eq_refl) as [Bd Bo]. rewrite Hnil in *. change (@len N []) with 0 in *. rewrite N.add_0_r in B2.
  assert (Hbo : s_borig s = []) by (apply pos_bytes_0; [eapply describes_pos, Bd|exact Bo]).
  assert (Hbuf : forall s' p E, s_buf s' = s_buf s1 -> s_borig s' = s_borig s1 -> p = E -> E <= total -> bufat true p s' E).
  { intros s' p E X Y Z W. unfold s1 in X, Y. cbn [set_enc s_buf s_borig] in X, Y. constructor; rewrite ?X, ?Y, ?Hnil, ?Hbo; change (@len N []) with 0; try reflexivity; try lia.
    intros _. split; [constructor|reflexivity]. }
  set (p := sub tree (base tree i + off) k) in *.
  assert (Hn : exists n, length p = S n /\ (k <> 1 -> exists n', n = S n')).
  { unfold len in Hlen. destruct (length p) as [|n] eqn:El; [lia|]. exists n. split; [reflexivity|]. intros Hk1. destruct n as [|n']; [lia|]. exists n'. reflexivity. }
  destruct Hn as (n & -> & Hn). cbn [verify_loop]. rewrite Eo.
  destruct (N.leb_spec k (l_size h)) as [Hle|Hgt].
  - (* the data ends with or within the first location *)
    assert (Hherek : here tree (base tree i + off) h r) by (exists i; repeat split; [exact Hi|exact Ek|lia]).
    destruct (advance_back tree Htree (base tree i + off) h more k r Hherek Hk0 Hle) as (o' & Ea & Hpos' & Hsum' & Hback); [lia|exact Hpos|].
    rewrite Ea. unfold goes_on. cbn [fst snd]. split.
    + exists ps. split; [apply (core_same digest c tree answered ps s1); [exact Hcore1|reflexivity..]|]. cbn [set_item s_state s_enc s_item]. unfold s1 at 1. cbn [set_enc s_state]. rewrite Hst.
      exists (mkItem (i_start it) o' (i_id it) (i_size it)), (v + k), (base tree i + off + k). split; [reflexivity|]. split; [exact Hstart|]. split; [apply Hready; reflexivity|].
      split; [apply Hbuf; [reflexivity|reflexivity|lia|lia]|]. destruct Hpend as [P1 P2 P3 P4 P5]. rewrite Eo in P2, P5. constructor; cbn [i_origin i_size i_id].
      * exact Hpos'.
      * lia.
      * exact P3.
      * exact P4.
      * intros Hd. apply P5. rewrite B2. apply Hback. rewrite <- B2. rewrite <- N.add_assoc. exact Hd.
    + unfold meas, pos, rank. cbn [set_item s_state s_index s_buf s_enc]. unfold s1. cbn [set_enc s_state s_index s_buf s_enc]. rewrite Hst, Hnil. change (@len N []) with 0.
      change (fold_right N.add 0 (map snd (s_index s))) with (pos s). rewrite (pos_core ps s Hcore). cbn [epos]. apply steps_here. lia.
  - (* the block has more data than the location *)
    assert (Hblock : r_payload r = false).
    { destruct (r_payload r) eqn:Hp; [|reflexivity]. specialize (Hksug eq_refl _ eq_refl). lia. }
    specialize (Hkpl Hblock). destruct more as [|m more].
    2: { unfold goes_on. cbn [fst snd]. split.
         - exists ps. split; [apply (core_same digest c tree answered ps s1); [exact Hcore1|reflexivity..]|]. cbn [set_state set_item s_state s_item]. exists it. split; [reflexivity|exact Hstart].
         - unfold meas, pos, rank. cbn [set_state set_item s_state s_index]. unfold s1. cbn [set_enc s_index].
           change (fold_right N.add 0 (map snd (s_index s))) with (pos s). rewrite (pos_core ps s Hcore). apply steps_here. lia. }
    (* the chunk ends here: it is written *)
    assert (Hherek : here tree (base tree i + off) h r) by (exists i; repeat split; [exact Hi|exact Ek|lia]).
    destruct Hpend as [P1 P2 P3 P4 P5]. rewrite Eo in P2, P5. rewrite origin_bytes_cons in P2. change (origin_bytes []) with 0 in P2.
    destruct P5 as [Hid Hfit].
    { rewrite B2. econstructor; [exact Hherek|discriminate|exact Hh|lia|constructor]. }
    set (piece := sub tree (len (concat ps)) (i_size it)) in *.
    assert (Hlp : len piece = i_size it) by (apply len_sub; exact Hfit).
    set (s2 := set_item (write_one_cached_chunk s1 it) None).
    assert (Hcore2 : core (ps ++ [piece]) s2).
    { apply (core_more digest c tree answered ps s1 piece false s2 Hcore1).
      - rewrite Hlp. reflexivity.
      - intros E. rewrite E in Hlp. change (@len N []) with 0 in Hlp. lia.
      - lia.
      - unfold s2, write_one_cached_chunk. cbn [set_item s_index]. rewrite Hid, Hlp. reflexivity.
      - reflexivity.
      - right. rewrite Hid. exact P4.
      - exact (k_puts _ _ _ _ _ _ Hcore1).
      - exact (k_ck _ _ _ _ _ _ Hcore1). }
    assert (Hpos2 : len (concat (ps ++ [piece])) = base tree i + off + l_size h) by (rewrite concat_snoc, len_app, Hlp; lia).
    set (l2 := loc_advance (l_size h) (whereis r off)).
    assert (Hstart2 : start_at (len (concat (ps ++ [piece]))) l2).
    { exists r. split; [rewrite Hpos2; apply here_advance; exists i; repeat split; exact Hi|]. unfold l2. cbn [loc_advance whereis l_off l_table]. split; [lia|reflexivity]. }
    assert (Hfurther : forall s' x, core (ps ++ [piece]) s' -> rank s' < 2 * total + 6 -> meas s' < steps_left (len (concat ps)) x).
    { intros s' x Hc' Hr'. unfold meas. rewrite (pos_core _ _ Hc'). apply steps_further; [rewrite Hpos2; lia|apply Hc'|exact Hr']. }
    destruct (cache_get_cases l2) as [Eg|[(it2 & Eg)|(e & Eg)]]; rewrite Eg.
    + (* not in the cache *)
      set (s3 := set_state s2 CIdle).
      assert (Hcore3 : core (ps ++ [piece]) s3) by (apply (core_same digest c tree answered _ s2); [exact Hcore2|reflexivity..]).
      assert (Hsk : sk = false) by (unfold sk; rewrite Hblock; reflexivity).
      pose proof (take_data_ok s3 (ps ++ [piece]) i off k r (Some l2) (l_size h) k Hcore3) as T.
      eassert (T' : goes_on _ _) by (apply T; clear T; [reflexivity|right; reflexivity|unfold s3, s2, s1; cbn [set_state set_item write_one_cached_chunk set_enc s_enc]; rewrite Hsk; reflexivity|exact Hi|right; repeat split; [exact Hk0|lia|intros _; exact Hkpl|exact Hgt]| | ]; [ | right; exists l2; unfold l2; cbn [loc_advance whereis l_key l_table l_off]; repeat split]; apply Hbuf; [reflexivity|reflexivity|exact Hpos2|lia]).
      unfold goes_on in *. destruct (take_data digest c quick tree s3 (Some l2) (l_size h)) as [s4 o4]. cbn [fst snd] in *. destruct o4; try exact T'.
      destruct T' as [A B]. split; [exact A|]. eapply N.lt_trans; [exact B|]. apply steps_further; [rewrite Hpos2; lia|apply Hcore2|lia].
    + (* another hit *)
      destruct (cache_get_ok _ _ _ Hstart2 Eg) as (Est2 & Hpend2 & (h2 & more2 & Eo2 & Ek2 & Ef2) & Hin2).
      destruct (Hn ltac:(lia)) as (n' & ->). cbn [verify_loop]. rewrite Eo2.
      set (s3 := set_item s2 (Some it2)).
      assert (Hcore3 : core (ps ++ [piece]) s3) by (apply (core_same digest c tree answered _ s2); [exact Hcore2|reflexivity..]).
      assert (Hst3 : s_state s3 = CVerify) by exact Hst.
      destruct (N.leb_spec (k - l_size h) (l_size h2)) as [Hle2|Hgt2].
      * unfold l2 in Ek2, Ef2. cbn [loc_advance whereis l_key l_off] in Ek2, Ef2.
        assert (Hhere2 : here tree (base tree i + off + l_size h) h2 r) by (exists i; repeat split; [exact Hi|congruence|lia]).
        pose proof (p_pos _ _ _ Hpend2) as Hposit2. rewrite Eo2 in Hposit2.
        destruct (advance_back tree Htree _ h2 more2 (k - l_size h) r Hhere2) as (o' & Ea & Hpos' & Hsum' & Hback); [lia|exact Hle2|lia|exact Hposit2|].
        rewrite Ea. unfold goes_on. cbn [fst snd].
        set (s4 := set_item s3 _).
        assert (Hcore4 : core (ps ++ [piece]) s4) by (apply (core_same digest c tree answered _ s3); [exact Hcore3|reflexivity..]).
        split.
        -- exists (ps ++ [piece]). split; [exact Hcore4|]. change (s_state s4) with (s_state s3). rewrite Hst3.
           exists (mkItem (i_start it2) o' (i_id it2) (i_size it2)), (k - l_size h), (base tree i + off + k). split; [reflexivity|]. cbn [i_start]. rewrite Est2. split; [exact Hstart2|].
           split; [apply Hready; reflexivity|]. split; [apply Hbuf; [reflexivity|reflexivity|rewrite Hpos2; lia|lia]|].
           destruct Hpend2 as [Q1 Q2 Q3 Q4 Q5]. rewrite Eo2 in Q2, Q5. constructor; cbn [i_origin i_size i_id].
           ++ exact Hpos'.
           ++ lia.
           ++ exact Q3.
           ++ exact Q4.
           ++ intros Hd. apply Q5. rewrite N.add_0_r, Hpos2. apply Hback. rewrite Hpos2 in Hd. exact Hd.
        -- apply (Hfurther s4 _ Hcore4). unfold rank. change (s_state s4) with (s_state s3). rewrite Hst3. change (s_buf s4) with (s_buf s). rewrite Hnil. change (@len N []) with 0.
           change (s_enc s4) with (EAt i off k sk). cbn [epos]. lia.
      * destruct more2 as [|m2 more2].
        -- exfalso. apply Hin2. exists h2, r. rewrite Eo2. unfold l2 in Ek2, Ef2. cbn [loc_advance whereis l_key l_off] in Ek2, Ef2.
           repeat split; [eapply nth_error_In, Hi|congruence|exact Hblock|lia|lia].
        -- unfold goes_on. cbn [fst snd]. set (s4 := set_state _ CFailed).
           assert (Hcore4 : core (ps ++ [piece]) s4) by (apply (core_same digest c tree answered _ s3); [exact Hcore3|reflexivity..]).
           split.
           ++ exists (ps ++ [piece]). split; [exact Hcore4|]. cbn [s4 set_state s_state]. exists it2. split; [reflexivity|]. rewrite Est2. exact Hstart2.
           ++ apply (Hfurther s4 _ Hcore4). unfold rank. change (s_state s4) with CFailed. cbv iota. lia.
    + unfold goes_on. cbn [fst snd]. cbn [failed]. exists l2. exact Eg.
Qed.
End Tree.
