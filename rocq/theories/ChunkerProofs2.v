(** Corollaries about the chunker used in Properties_Chunker.v, and ca_chunker_set_size. *)
From Verif Require Import Base Chunker ChunkerSpec ChunkerProofs SetSize.
Local Open Scope N_scope.

Lemma spec_chunks_all c l x pre post : spec_chunks c l = pre ++ x :: post ->
  x <> [] /\
  (forall n, (1 <= n < length x)%nat -> cut_here c (firstn n x) = false) /\
  (post <> [] -> cut_here c x = true).
Proof.
  unfold spec_chunks. intros H.
  destruct (spec_split_chunks c l []) as [Hcs Hr]; [cbn; intros; lia|].
  destruct (spec_split c [] l) as [cs r]. cbn [fst snd] in *.
  assert (Hin : In x cs -> x <> [] /\ first_cut_chunk c x).
  { intros Hi. rewrite Forall_forall in Hcs. apply Hcs, Hi. }
  destruct post as [|y post] using rev_ind.
  - (* x is the last *)
    destruct r as [|b r].
    + rewrite app_nil_r in H. assert (Hi : In x cs) by (rewrite H; apply in_or_app; right; left; reflexivity).
      destruct (Hin Hi) as [Hne [Hc Hn]]. split; [exact Hne|split; [exact Hn|congruence]].
    + change (pre ++ [x]) with (pre ++ [x]) in H. apply app_inj_tail in H as [_ <-].
      split; [discriminate|]. split; [intros n Hn; apply Hr; lia|congruence].
  - clear IHpost.
    assert (Hi : In x cs).
    { destruct r as [|b r].
      - rewrite app_nil_r in H. rewrite H. apply in_or_app. right. left. reflexivity.
      - rewrite app_comm_cons, app_assoc in H. apply app_inj_tail in H as [-> _].
        apply in_or_app. right. left. reflexivity. }
    destruct (Hin Hi) as [Hne [Hc Hn]]. split; [exact Hne|split; [exact Hn|intros _; exact Hc]].
Qed.

Lemma spec_chunks_nonempty c l x : In x (spec_chunks c l) -> x <> [].
Proof. intros H. apply in_split in H as (pre & post & H). eapply spec_chunks_all, H. Qed.

(** Upper bound. *)
Lemma chunk_le_max c l x : cfg_ok c = true -> (is_fixed c = true \/ 48 <= c_max c) ->
  In x (spec_chunks c l) -> len x <= c_max c.
Proof.
  intros Hc Hm Hin. apply in_split in Hin as (pre & post & H).
  destruct (spec_chunks_all _ _ _ _ _ H) as (Hne & Hn & _).
  destruct (N.le_gt_cases (len x) (c_max c)) as [Hle|Hgt]; [exact Hle|exfalso].
  unfold cfg_ok in Hc.
  specialize (Hn (N.to_nat (c_max c))). unfold len in Hgt.
  specialize (Hn ltac:(lia)). unfold cut_here in Hn.
  assert (Hl : len (firstn (N.to_nat (c_max c)) x) = c_max c) by (unfold len; rewrite firstn_length; lia).
  rewrite Hl in Hn. destruct (is_fixed c) eqn:Hf.
  - unfold is_fixed in Hf. lia.
  - destruct Hm as [Hm|Hm]; [discriminate|].
    rewrite (N.leb_refl (c_max c)) in Hn. cbn [orb] in Hn. rewrite andb_true_r in Hn.
    apply N.leb_gt in Hn. lia.
Qed.

Lemma chunk_ge_min c l x pre post : cfg_ok c = true -> spec_chunks c l = pre ++ x :: post -> post <> [] ->
  (is_fixed c = true -> len x = c_avg c) /\ (is_fixed c = false -> c_min c <= len x /\ 48 <= len x).
Proof.
  intros Hc H Hp. destruct (spec_chunks_all _ _ _ _ _ H) as (_ & _ & Hcut). specialize (Hcut Hp).
  unfold cut_here in Hcut. split; intros Hf; rewrite Hf in Hcut; lia.
Qed.

(** Dropping the first chunk. *)
Lemma spec_chunks_tail c l x rest : spec_chunks c l = x :: rest -> rest = spec_chunks c (skipn (length x) l).
Proof.
  intros H. pose proof (spec_chunks_concat c l) as Hcat. rewrite H in Hcat. cbn [concat] in Hcat.
  unfold spec_chunks in H. rewrite spec_split_first_cut in H.
  destruct (first_cut c [] l) as [n|] eqn:Hfc.
  - destruct (spec_split c [] (dropN n l)) as [cs r] eqn:Hs. cbn [app] in H.
    injection H as Hx Hr. pose proof (first_cut_bound _ _ _ _ Hfc) as Hb.
    assert (Hlx : length x = N.to_nat n).
    { rewrite <- Hx. unfold takeN. rewrite firstn_length. unfold len in Hb. lia. }
    unfold spec_chunks. rewrite Hlx. fold (dropN n l). rewrite Hs. symmetry. exact Hr.
  - cbn [app] in H. destruct l as [|b l]; [discriminate|]. injection H as <- <-.
    rewrite skipn_all. reflexivity.
Qed.

Lemma spec_chunks_resync c cs : forall l r, spec_chunks c l = cs ++ r ->
  r = spec_chunks c (skipn (length (concat cs)) l).
Proof.
  induction cs as [|x cs IH]; intros l r H; cbn [app concat] in *.
  - symmetry. exact H.
  - pose proof (spec_chunks_tail _ _ _ _ H) as Ht. symmetry in Ht. apply IH in Ht.
    rewrite Ht, app_length. f_equal. clear.
    generalize (length x) (length (concat cs)). intros n m. revert l. induction n as [|n IHn]; intros l; [reflexivity|].
    destruct l; [rewrite !skipn_nil; reflexivity|]. cbn [skipn Nat.add]. apply IHn.
Qed.

Lemma resync_lemma c a1 a2 t cs1 r1 cs2 r2 :
  spec_chunks c (a1 ++ t) = cs1 ++ r1 -> concat cs1 = a1 ->
  spec_chunks c (a2 ++ t) = cs2 ++ r2 -> concat cs2 = a2 -> r1 = r2.
Proof.
  intros H1 E1 H2 E2. apply spec_chunks_resync in H1, H2. subst a1 a2. rewrite H1, H2.
  rewrite !skipn_app, !skipn_all, !Nat.sub_diag. reflexivity.
Qed.

(** ** Scanning *)
Lemma scan_border_bound c s cur p k s' : cfg_ok c = true -> Rep c s cur ->
  ca_chunker_scan c s p = Ok (Some k, s') -> 1 <= k <= len p.
Proof.
  intros Hc HR H. pose proof (scan_ok c Hc s cur p HR) as HS. unfold scan_result in HS.
  destruct (first_cut c cur p) as [n|] eqn:E.
  - destruct HS as (w & _ & He). rewrite He in H. injection H as <- _.
    rewrite N.add_0_l. eapply first_cut_bound, E.
  - destruct HS as (s2 & He & _). rewrite He in H. discriminate.
Qed.

(** ** set_size *)
Lemma set_size_ok geo s min avg max c : ca_chunker_set_size geo s min avg max = Ok c ->
  (1 <= c_min c /\ c_min c <= c_avg c /\ c_avg c <= c_max c /\ c_max c <= 134217728) /\
  (c_min c <= c_disc c /\ c_disc c <= c_max c) /\
  (min <> 0 -> c_min c = min) /\ (avg <> 0 -> c_avg c = avg) /\ (max <> 0 -> c_max c = max) /\
  ck_wsize s = 0.
Proof.
  unfold ca_chunker_set_size. destruct (N.eqb_spec (ck_wsize s) 0) as [Hw|Hw]; cbn [negb]; [|discriminate].
  destruct (pick_avg geo min avg max) as [a| | |] eqn:Ha; cbn [bind]; try discriminate.
  destruct (pick_min min a) as [mi| | |] eqn:Hmi; cbn [bind]; try discriminate.
  destruct (pick_max a max) as [ma| | |] eqn:Hma; cbn [bind]; try discriminate.
  destruct ((LIMIT_MIN <=? mi) && (mi <=? a) && (a <=? ma) && (ma <=? LIMIT_MAX)) eqn:Hr; [|discriminate].
  destruct (discriminator_from_avg a) as [d| | |]; cbn [bind]; try discriminate.
  intros H.
  assert (Hc : c = mkCfg mi a ma (if ma <? (if d <? mi then mi else d) then ma else (if d <? mi then mi else d))) by congruence.
  clear H. subst c. cbn [c_min c_avg c_max c_disc]. unfold LIMIT_MIN, LIMIT_MAX in *.
  split; [lia|]. split.
  { destruct (N.ltb_spec d mi); [destruct (N.ltb_spec ma mi)|destruct (N.ltb_spec ma d)]; lia. }
  split; [|split; [|split; [|exact Hw]]].
  - intros Hn. unfold pick_min in Hmi. destruct (N.eqb_spec min 0); [contradiction|].
    destruct (min <? LIMIT_MIN); [discriminate|]. destruct (a <? min); [discriminate|]. congruence.
  - intros Hn. unfold pick_avg in Ha. destruct (N.eqb_spec avg 0); [contradiction|].
    destruct (avg <? LIMIT_MIN); [discriminate|]. destruct (LIMIT_MAX <? avg); [discriminate|]. congruence.
  - intros Hn. unfold pick_max in Hma. destruct (N.eqb_spec max 0); [contradiction|].
    destruct (LIMIT_MAX <? max); [discriminate|]. destruct (max <? a); [discriminate|]. congruence.
Qed.

Lemma pick_avg_range geo min avg max a : pick_avg geo min avg max = Ok a -> 1 <= a <= 134217728.
Proof.
  unfold pick_avg, LIMIT_MIN, LIMIT_MAX.
  destruct (N.eqb_spec avg 0).
  - cbv zeta. intros H.
    match type of H with Ok (if _ <? (if ?x <? 1 then 1 else ?x) then _ else _) = _ => generalize dependent x end.
    intros x H. destruct (N.ltb_spec x 1); destruct (N.ltb_spec 134217728 x); destruct (N.ltb_spec 134217728 1);
    try lia; injection H as <-; lia.
  - destruct (N.ltb_spec avg 1); [discriminate|]. destruct (N.ltb_spec 134217728 avg); [discriminate|].
    intros [= <-]. lia.
Qed.

(** The assertions in set_size are never hit. *)
Lemma set_size_no_abort geo s min avg max : ca_chunker_set_size geo s min avg max <> Abort.
Proof.
  unfold ca_chunker_set_size. destruct (negb (ck_wsize s =? 0)); [discriminate|].
  destruct (pick_avg geo min avg max) as [a| | |] eqn:Ha; cbn [bind]; try discriminate.
  2:{ unfold pick_avg in Ha. destruct (avg =? 0); [discriminate|]. destruct (avg <? LIMIT_MIN); [discriminate|].
      destruct (LIMIT_MAX <? avg); discriminate. }
  pose proof (pick_avg_range _ _ _ _ _ Ha) as Hra.
  destruct (pick_min min a) as [mi| | |] eqn:Hmi; cbn [bind]; try discriminate.
  2:{ unfold pick_min in Hmi. destruct (min =? 0); [discriminate|]. destruct (min <? LIMIT_MIN); [discriminate|].
      destruct (a <? min); discriminate. }
  destruct (pick_max a max) as [ma| | |] eqn:Hma; cbn [bind]; try discriminate.
  2:{ unfold pick_max in Hma. destruct (max =? 0); [discriminate|]. destruct (LIMIT_MAX <? max); [discriminate|].
      destruct (max <? a); discriminate. }
  assert (Hmi' : 1 <= mi <= a).
  { unfold pick_min, LIMIT_MIN in Hmi. destruct (min =? 0).
    - cbv zeta in Hmi. destruct (N.ltb_spec (a / 4) 1); injection Hmi as <-; lia.
    - destruct (N.ltb_spec min 1); [discriminate|]. destruct (N.ltb_spec a min); [discriminate|].
      injection Hmi as <-. lia. }
  assert (Hma' : a <= ma <= 134217728).
  { unfold pick_max, LIMIT_MAX in Hma. destruct (max =? 0).
    - cbv zeta in Hma. rewrite (N.mod_small (a * 4)) in Hma by (unfold two64; lia).
      destruct (N.ltb_spec 134217728 (a * 4)); injection Hma as <-; lia.
    - destruct (N.ltb_spec 134217728 max); [discriminate|]. destruct (N.ltb_spec max a); [discriminate|].
      injection Hma as <-. lia. }
  replace ((LIMIT_MIN <=? mi) && (mi <=? a) && (a <=? ma) && (ma <=? LIMIT_MAX)) with true
    by (unfold LIMIT_MIN, LIMIT_MAX; lia).
  destruct (discriminator_from_avg a) as [d| | |] eqn:Hd; cbn [bind]; try discriminate.
  exfalso. unfold discriminator_from_avg, size_of_double in Hd.
  match type of Hd with match ?x with _ => _ end = _ => destruct x as [ | | | sg m e] end; try discriminate.
  destruct sg; match type of Hd with (if ?b then _ else _) = _ => destruct b end; discriminate.
Qed.

Lemma set_size_cfg_ok geo s min avg max c : ca_chunker_set_size geo s min avg max = Ok c -> cfg_ok c = true.
Proof. intros H. apply set_size_ok in H. unfold cfg_ok. lia. Qed.

(** ** The scanner by itself *)
(** States a chunker can be in: initial, or after scanning something. *)
Inductive reach (c : cfg) : chunker -> Prop :=
| reach_init : reach c chunker_init
| reach_scan s p o s' : reach c s -> ca_chunker_scan c s p = Ok (o, s') -> reach c s'.

Lemma reach_rep c s : cfg_ok c = true -> reach c s -> exists cur, Rep c s cur.
Proof.
  intros Hc H; induction H as [|s p o s' _ [cur HR] He].
  - exists []. apply rep_init; [exact Hc|reflexivity].
  - pose proof (scan_ok c Hc s cur p HR) as HS. unfold scan_result in HS.
    destruct (first_cut c cur p) as [n|].
    + destruct HS as (w & Hw & H). rewrite H in He. injection He as _ <-. exists []. apply rep_init; assumption.
    + destruct HS as (s2 & H & HR2). rewrite H in He. injection He as _ <-. eauto.
Qed.

Lemma first_cut_app_gen c cur a b :
  first_cut c cur (a ++ b) =
  match first_cut c cur a with
  | Some n => Some n
  | None => option_map (N.add (len a)) (first_cut c (cur ++ a) b)
  end.
Proof.
  revert cur; induction a as [|x a IH]; intros cur; cbn [app first_cut].
  - rewrite app_nil_r, len_nil. destruct (first_cut c cur b); reflexivity.
  - destruct (cut_here c (cur ++ [x])); [reflexivity|]. rewrite IH, <- app_assoc. cbn [app].
    destruct (first_cut c (cur ++ [x]) a); cbn [option_map]; [reflexivity|].
    rewrite len_cons. destruct (first_cut c (cur ++ x :: a) b); cbn [option_map]; [f_equal; lia|reflexivity].
Qed.

Definition border (r : res (option N * chunker)) : option N :=
  match r with Ok (k, _) => k | _ => None end.

Lemma scan_split_lemma c s a b : cfg_ok c = true -> reach c s ->
  exists o s1, ca_chunker_scan c s a = Ok (o, s1) /\
  match o with
  | Some k => border (ca_chunker_scan c s (a ++ b)) = Some k
  | None => border (ca_chunker_scan c s (a ++ b)) = option_map (N.add (len a)) (border (ca_chunker_scan c s1 b))
  end.
Proof.
  intros Hc Hr. destruct (reach_rep c s Hc Hr) as [cur HR].
  pose proof (scan_ok c Hc s cur a HR) as HA. pose proof (scan_ok c Hc s cur (a ++ b) HR) as HAB.
  unfold scan_result in *. rewrite first_cut_app_gen in HAB.
  destruct (first_cut c cur a) as [n|] eqn:Ea.
  - destruct HA as (w & _ & He). destruct HAB as (w' & _ & He'). rewrite He, He'. do 2 eexists. split; reflexivity.
  - destruct HA as (s1 & He & HR1). exists None, s1. split; [exact He|].
    pose proof (scan_ok c Hc s1 (cur ++ a) b HR1) as HB. unfold scan_result in HB.
    destruct (first_cut c (cur ++ a) b) as [m|]; cbn [option_map] in HAB.
    + destruct HB as (w & _ & HB). destruct HAB as (w' & _ & HAB). rewrite HAB, HB. reflexivity.
    + destruct HB as (s2 & HB & _). destruct HAB as (s3 & HAB & _). rewrite HAB, HB. reflexivity.
Qed.

Lemma scan_reach_bound c s p k s' : cfg_ok c = true -> reach c s ->
  ca_chunker_scan c s p = Ok (Some k, s') -> 1 <= k <= len p.
Proof. intros Hc Hr. destruct (reach_rep c s Hc Hr) as [cur HR]. eapply scan_border_bound; eassumption. Qed.

Lemma scan_reach_ok c s p : cfg_ok c = true -> reach c s -> exists o s', ca_chunker_scan c s p = Ok (o, s').
Proof. intros Hc Hr. destruct (scan_split_lemma c s p [] Hc Hr) as (o & s1 & H & _). eauto. Qed.

(** In every reachable state with a full window, the hash kept by rolling is the hash of the last
    48 bytes; stated for a run without cut from the initial state. *)
Lemma rolling_hash c ps : cfg_ok c = true -> is_fixed c = false ->
  forall s, write_pieces c split_init ps = Ok ([], s) ->
  N.max (c_min c) 48 <= len (concat ps) ->
  ck_h (sp_ck s) = buz (last48 (concat ps)).
Proof.
  intros Hc Hf s H Hl.
  destruct (write_pieces_ok c Hc ps split_init [] (repS_init c Hc)) as (s' & H' & [HR _]).
  rewrite H in H'. injection H' as Hcs <-.
  pose proof (spec_split_concat c (concat ps) []) as Hcat. rewrite <- Hcs in Hcat. cbn [concat app] in Hcat.
  rewrite Hcat in HR. unfold Rep in HR. rewrite Hf in HR. destruct HR as (_ & _ & [(Hlt & _)|(_ & _ & Hh & _)]).
  - rewrite skip48 in Hlt. lia.
  - exact Hh.
Qed.
