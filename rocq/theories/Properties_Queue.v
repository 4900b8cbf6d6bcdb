(** C34: requests for chunks are handed out once, high priority first, otherwise in order. *)
From Verif Require Import Base Locator ChunkId ChunkIdProofs Posix PosixProofs ChunkFile Cache StoreSpec StoreProofs1 StoreProofs4 Queue QueueSpec QueueProofs1 QueueProofs2 QueueProofs3 QueueProofs4.
Local Open Scope N_scope.

Lemma inv_new root w : unused root w -> inv root w (queue_new root) nothing (fun _ => []).
Proof.
  intros (Hr & Hf & Hc).
  assert (Hn : forall p, of_queue root p -> p <> root -> name_at w p = None) by exact Hf.
  constructor.
  - reflexivity.
  - exact Hr.
  - reflexivity.
  - intros [|]; reflexivity.
  - intros [|]; apply N.le_refl.
  - intros d Hd. left. apply Hn; [apply of_dir; exact Hd|apply not_eq_sym, root_dir].
  - intros hi H. contradiction.
  - intros hi n. rewrite (Hn _ (of_slot root hi n)) by (apply not_eq_sym, root_slot). destruct (N.to_nat n); reflexivity.
  - intros id hi n H. destruct (N.to_nat n); discriminate H.
  - intros id _ _. apply Hn; [apply of_mark|apply not_eq_sym, root_mark].
  - intros id hi [].
  - intros [|]; reflexivity.
  - intros id hi. split; [discriminate|intros []].
  - exact Hc.
Qed.

Lemma sensible_cons s o h : sensible s (o :: h) <-> sensible s [o] /\ sensible (fst (expect s o)) h.
Proof. cbn [sensible]. tauto. Qed.
Lemma sensible_app : forall h s g, sensible s (h ++ g) <-> sensible s h /\ sensible (after s h) g.
Proof. induction h as [|o h IH]; intros s g; [cbn; tauto|]. cbn [app after]. rewrite sensible_cons, (sensible_cons s o h), IH. tauto. Qed.

Lemma run_inv root fuel w q h w' q' : run false fuel w q h w' q' -> forall s T, inv root w q s T -> sensible s (map fst h) ->
  (forall b, q_end b q + N.of_nat (length h) + 1 < two64) -> q_end true q + q_end false q + 2 * N.of_nat (length h) < N.of_nat fuel ->
  served s h /\ (exists T', inv root w' q' (after s (map fst h)) T') /\ (forall b, q_end b q' <= q_end b q + N.of_nat (length h)).
Proof.
  induction 1 as [w q|w q o w1 q1 a h w2 q2 Hx H IH|w q w1 h w2 q2 He H IH]; intros s T Hi Hs Hmax Hf.
  - cbn. split; [exact I|]. split; [exists T; exact Hi|]. intros b. lia.
  - cbn [map fst] in Hs. apply sensible_cons in Hs. destruct Hs as [Hs1 Hs2]. cbn [length] in *.
    destruct (ends_exec _ _ _ _ _ _ (op_ends root fuel w q s T o Hi ltac:(intros b; specialize (Hmax b); lia) ltac:(lia) Hs1) Hx) as (Ha & Hb & T' & Hi').
    cbn [fst snd] in Ha, Hb, Hi'. destruct (IH _ T' Hi' Hs2) as (A & B & C).
    + intros b. specialize (Hmax b). specialize (Hb b). lia.
    + pose proof (Hb true). pose proof (Hb false). lia.
    + cbn [served map fst after]. split; [split; [exact Ha|exact A]|]. split; [exact B|]. intros b. specialize (C b). specialize (Hb b). lia.
  - rewrite (i_path _ _ _ _ _ Hi) in He. apply (IH s T); try assumption. eapply inv_elsewhere; eassumption.
Qed.

(** The links in the cache directory are two queues: each history of requests, hand-outs and forgotten chunks is answered as by two
    first-in first-out queues ([QueueSpec.expect]). Whatever else is done in the directory does not disturb them. *)
Theorem queue_is_two_fifos root fuel w h w' q' : unused root w -> sensible nothing (map fst h) -> N.of_nat (length h) + 1 < two64 ->
  2 * N.of_nat (length h) < N.of_nat fuel -> run false fuel w (queue_new root) h w' q' -> served nothing h.
Proof.
  intros Hu Hs Hl Hf Hr. eapply (run_inv root fuel w (queue_new root) h w' q' Hr nothing); [apply inv_new; exact Hu|exact Hs| |].
  - intros [|]; cbn; lia.
  - cbn. lia.
Qed.
Print Assumptions queue_is_two_fifos.

(** Each operation comes to an end, at any point of a history. *)
Theorem queue_goes_on root fuel w h w' q' o : unused root w -> sensible nothing (map fst h ++ [o]) -> N.of_nat (length h) + 2 < two64 ->
  2 * N.of_nat (length h) < N.of_nat fuel -> run false fuel w (queue_new root) h w' q' ->
  exists w2 q2 a, exec false w' (op_prog fuel q' o) w2 (q2, a) /\ run false fuel w (queue_new root) (h ++ [(o, a)]) w2 q2.
Proof.
  intros Hu Hs Hl Hf Hr. apply sensible_app in Hs. destruct Hs as [Hs Ho].
  destruct (run_inv root fuel w (queue_new root) h w' q' Hr nothing _ (inv_new root w Hu) Hs) as (_ & (T & Hi) & Hb); [intros [|]; cbn; lia|cbn; lia|].
  assert (Hb' : forall b, q_end b q' <= N.of_nat (length h)) by (intros b; specialize (Hb b); replace (q_end b (queue_new root)) with 0 in Hb by (destruct b; reflexivity); exact Hb).
  destruct (ends_exists _ _ _ _ (op_ends root fuel w' q' _ T o Hi ltac:(intros b; specialize (Hb' b); lia) ltac:(pose proof (Hb' true) as H1; pose proof (Hb' false) as H2; lia) Ho)) as (w2 & [q2 a] & Hx).
  exists w2, q2, a. split; [exact Hx|]. clear -Hr Hx. induction Hr.
  - eapply r_op; [exact Hx|constructor].
  - cbn [app]. eapply r_op; [eassumption|auto].
  - eapply r_else; [eassumption|auto].
Qed.
Print Assumptions queue_goes_on.

(** Whatever fails, and whatever happens to the rest of the directory: a chunk is handed out at most as often as a request for it was accepted. *)
Theorem queue_at_most_once root fuel w h w' q' id : unused root w -> id_ok id = true -> N.of_nat (length h) + 1 < two64 ->
  Forall (fun e => match fst e with Ask x _ _ => id_ok x = true | _ => True end) h ->
  run true fuel w (queue_new root) h w' q' -> (times (is_got id) h <= times (is_queued id) h)%nat.
Proof.
  intros (Hr & Hu & _) Hid Hl Hok H.
  assert (sane root w (queue_new root)) as S.
  { constructor; [reflexivity|intros [|]; cbn; lia| |]; intros b n; [intros _|intros t E; exfalso]; pose proof (Hu _ (of_slot root b n) ltac:(apply not_eq_sym, root_slot)) as Z; [exact Z|rewrite Z in E; discriminate E]. }
  pose proof (run_count root true fuel id w (queue_new root) h w' q' Hid H S ltac:(intros [|]; cbn; lia) Hok) as Hc.
  assert (forall b, pending root w (queue_new root) id b = 0%nat) as Z by (intros [|]; reflexivity). rewrite !Z in Hc. lia.
Qed.
Print Assumptions queue_at_most_once.

(** ** Consequences for histories without failures *)
Definition got_at (id : list N) (high : bool) (e : op * answer) : bool := match snd e with Got x b => beq x id && Bool.eqb b high | _ => false end.
Definition never_forgotten (id : list N) (h : list (op * answer)) : Prop := Forall (fun e => fst e <> Forget id) h.

Definition occ (id : list N) (l : list (list N)) : nat := length (filter (fun x => beq x id) l).
Lemma occ_app id a b : occ id (a ++ b) = (occ id a + occ id b)%nat.
Proof. unfold occ. rewrite filter_app, app_length. reflexivity. Qed.
Lemma occ_one id x : occ id [x] = if beq x id then 1%nat else 0%nat.
Proof. unfold occ. cbn [filter]. destruct (beq x id); reflexivity. Qed.
Lemma occ_without id x l : occ id (without x l) = if beq x id then O else occ id l.
Proof.
  unfold occ, without. induction l as [|y l IH]; [destruct (beq x id); reflexivity|]. cbn [filter]. destruct (beq y x) eqn:E; cbn [negb filter].
  - rewrite IH. apply beq_eq in E. subst y. destruct (beq x id); reflexivity.
  - destruct (beq y id) eqn:E2; cbn [length].
    + rewrite IH. apply beq_eq in E2. subst y. replace (beq x id) with false; [reflexivity|]. symmetry. apply beq_neq. apply beq_neq in E. auto.
    + exact IH.
Qed.
Lemma existsb_occ id l : existsb (beq id) l = true <-> (1 <= occ id l)%nat.
Proof.
  unfold occ. induction l as [|y l IH]; [cbn; split; [discriminate|lia]|]. cbn [existsb filter]. destruct (beq y id) eqn:E.
  - apply beq_eq in E. subst y. rewrite beq_refl. cbn [orb length]. split; [lia|reflexivity].
  - replace (beq id y) with false; [exact IH|]. symmetry. apply beq_neq. apply beq_neq in E. auto.
Qed.

(** What was handed out so far, with high and low priority, and what is waiting. *)
Definition balance (id : list N) (s : fifo) (gh gl : nat) (again : Prop) : Prop :=
  match assoc (known s) id with
  | None => gh = 0 /\ gl = 0 /\ occ id (waiting_high s) = 0 /\ occ id (waiting_low s) = 0
  | Some false => gh = 0 /\ occ id (waiting_high s) = 0 /\ gl + occ id (waiting_low s) <= 1
  | Some true => occ id (waiting_low s) = 0 /\ gl <= 1 /\ gh + occ id (waiting_high s) <= 1 /\ (~ again -> gh + occ id (waiting_high s) + gl <= 1)
  end%nat.

Lemma balance_step id s gh gl (again : Prop) o : sensible s [o] -> o <> Forget id -> (forall hi, o = Ask id hi true -> again) -> balance id s gh gl again ->
  balance id (fst (expect s o)) (gh + if got_at id true (o, snd (expect s o)) then 1 else 0)%nat (gl + if got_at id false (o, snd (expect s o)) then 1 else 0)%nat again.
Proof.
  intros _ Hnf Hag B. unfold balance in *. destruct o as [x hi ag|only|x]; cbn [expect].
  - unfold ask. destruct (assoc (known s) x) as [[|]|] eqn:Ex.
    + cbn [fst snd got_at]. rewrite !Nat.add_0_r. exact B.
    + destruct (hi && (ag || existsb (beq x) (waiting_low s))) eqn:EC; cbn [fst snd got_at]; rewrite !Nat.add_0_r; [|exact B].
      apply andb_prop in EC. destruct EC as [-> EC]. cbn [join leave waiting_high waiting_low known assoc]. rewrite occ_app, !occ_without, assoc_forgotten. destruct (beq x id) eqn:E.
      * apply beq_eq in E. subst x. rewrite Ex in B. rewrite !occ_one, beq_refl. destruct B as (B1 & B2 & B3).
        split; [reflexivity|]. split; [lia|]. split; [lia|]. intros Hno. apply orb_prop in EC. destruct EC as [->|EC]; [exfalso; apply Hno; apply (Hag true); reflexivity|]. apply existsb_occ in EC. lia.
      * replace (beq id x) with false by (symmetry; apply beq_neq; apply beq_neq in E; auto). rewrite !occ_one, E.
        destruct (assoc (known s) id) as [[|]|]; rewrite ?Nat.add_0_r; exact B.
    + cbn [fst snd got_at]. rewrite !Nat.add_0_r. destruct hi; cbn [join waiting_high waiting_low known assoc]; rewrite ?occ_app; destruct (beq x id) eqn:E.
      * apply beq_eq in E. subst x. rewrite Ex in B. destruct B as (-> & -> & B3 & B4). rewrite B3, B4. rewrite !occ_one, beq_refl. lia.
      * rewrite !occ_one, E. destruct (assoc (known s) id) as [[|]|]; rewrite ?Nat.add_0_r; exact B.
      * apply beq_eq in E. subst x. rewrite Ex in B. destruct B as (-> & -> & B3 & B4). rewrite B3, B4. rewrite !occ_one, beq_refl. lia.
      * rewrite !occ_one, E. destruct (assoc (known s) id) as [[|]|]; rewrite ?Nat.add_0_r; exact B.
  - assert (Hsame : match assoc (known s) id with
      | None => (gh + 0)%nat = 0%nat /\ (gl + 0)%nat = 0%nat /\ occ id (waiting_high s) = 0%nat /\ occ id (waiting_low s) = 0%nat
      | Some false => (gh + 0)%nat = 0%nat /\ occ id (waiting_high s) = 0%nat /\ (gl + 0 + occ id (waiting_low s) <= 1)%nat
      | Some true => occ id (waiting_low s) = 0%nat /\ (gl + 0 <= 1)%nat /\ (gh + 0 + occ id (waiting_high s) <= 1)%nat /\ (~ again -> gh + 0 + occ id (waiting_high s) + (gl + 0) <= 1)%nat
      end) by (rewrite !Nat.add_0_r; exact B).
    assert (Hcons : forall y l, occ id (y :: l) = ((if beq y id then 1 else 0) + occ id l)%nat) by (intros y l; unfold occ; cbn [filter]; destruct (beq y id); reflexivity).
    destruct s as [h l k]. cbn [waiting_high waiting_low known] in *. unfold next. cbn [waiting_high waiting_low known].
    destruct h as [|y h], l as [|z l], only as [[|]|]; cbn [fst snd got_at waiting_high waiting_low known]; try exact Hsame;
      rewrite ?Hcons in B; cbn [Bool.eqb]; rewrite ?Bool.andb_true_r, ?Bool.andb_false_r, ?Hcons, ?Nat.add_0_r;
      try destruct (beq y id); try destruct (beq z id); destruct (assoc k id) as [[|]|]; cbn [occ] in *; try lia; destruct B as (B1 & B2 & B3 & B4); repeat split; try lia; intros Hno; specialize (B4 Hno); lia.
  - cbn [leave fst snd got_at waiting_high waiting_low known]. rewrite !Nat.add_0_r, assoc_forgotten, !occ_without.
    replace (beq id x) with false by (symmetry; apply beq_neq; congruence). replace (beq x id) with false by (symmetry; apply beq_neq; congruence). exact B.
Qed.

Lemma balance_run id (again : Prop) : forall h s gh gl, sensible s (map fst h) -> served s h -> never_forgotten id h -> (forall hi, In (Ask id hi true) (map fst h) -> again) -> balance id s gh gl again ->
  balance id (after s (map fst h)) (gh + times (got_at id true) h) (gl + times (got_at id false) h) again.
Proof.
  unfold times. induction h as [|[o a] h IH]; intros s gh gl Hs Hv Hn Hag B; cbn [map fst after filter]; [cbn [length]; rewrite !Nat.add_0_r; exact B|].
  cbn [map fst] in Hs. apply sensible_cons in Hs. destruct Hs as [Hs1 Hs2]. destruct Hv as [-> Hv]. inversion Hn as [|? ? Hn1 Hn2]; subst. cbn [fst] in Hn1.
  pose proof (balance_step id s gh gl again o Hs1 Hn1 ltac:(intros hi ->; apply (Hag hi); left; reflexivity) B) as B1.
  specialize (IH _ _ _ Hs2 Hv Hn2 ltac:(intros hi Hin; apply (Hag hi); right; exact Hin) B1).
  destruct (got_at id true _), (got_at id false _); cbn [length]; rewrite ?Nat.add_0_r in IH; rewrite <- ?Nat.add_assoc in IH; exact IH.
Qed.

(** A chunk that is not forgotten is handed out at most once with each priority; and at most once at all, if it is not asked for again. *)
Theorem queue_once root fuel w h w' q' id : unused root w -> sensible nothing (map fst h) -> N.of_nat (length h) + 1 < two64 ->
  2 * N.of_nat (length h) < N.of_nat fuel -> run false fuel w (queue_new root) h w' q' -> never_forgotten id h ->
  (times (got_at id true) h <= 1)%nat /\ (times (got_at id false) h <= 1)%nat /\
  ((forall hi, ~ In (Ask id hi true) (map fst h)) -> (times (is_got id) h <= 1)%nat).
Proof.
  intros Hu Hs Hl Hf Hr Hn. pose proof (queue_is_two_fifos root fuel w h w' q' Hu Hs Hl Hf Hr) as Hv.
  assert (times (is_got id) h = times (got_at id true) h + times (got_at id false) h)%nat as Hsum.
  { clear. unfold times. induction h as [|[o a] h IH]; [reflexivity|]. cbn [filter]. unfold is_got, got_at in *. cbn [snd]. destruct a; try exact IH. destruct (beq id0 id); cbn [andb]; [|exact IH]. destruct high; cbn [Bool.eqb length]; lia. }
  assert (B : forall again : Prop, (forall hi, In (Ask id hi true) (map fst h) -> again) -> balance id (after nothing (map fst h)) (times (got_at id true) h) (times (got_at id false) h) again).
  { intros again Hag. apply (balance_run id again h nothing 0%nat 0%nat Hs Hv Hn Hag). cbn. auto. }
  pose proof (B True ltac:(auto)) as B1. unfold balance in B1.
  split; [destruct (assoc _ id) as [[|]|]; lia|]. split; [destruct (assoc _ id) as [[|]|]; lia|].
  intros Hno. pose proof (B False Hno) as B2. unfold balance in B2. rewrite Hsum. destruct (assoc _ id) as [[|]|]; [|lia|lia]. destruct B2 as (_ & _ & _ & B2). specialize (B2 (fun x => x)). lia.
Qed.
Print Assumptions queue_once.

(** * Cases *)
Definition q_root : list N := [113].
Definition q_world : Posix.world := {| w_names := []; w_inodes := []; w_fds := [] |}.
Definition id_a : list N := repeat 1 32.
Definition id_b : list N := repeat 2 32.
Example q_world_unused : unused q_root q_world.
Proof. split; [left; reflexivity|]. split; [reflexivity|]. intros p _. discriminate. Qed.

(** All histories that make sense can happen. *)
Lemma history_runs root fuel w : unused root w -> forall ops, sensible nothing ops -> N.of_nat (length ops) + 2 < two64 -> 2 * N.of_nat (length ops) < N.of_nat fuel ->
  exists h w' q', map fst h = ops /\ run false fuel w (queue_new root) h w' q'.
Proof.
  intros Hu ops. induction ops as [|o ops IH] using rev_ind; intros Hs Hl Hf.
  - exists [], w, (queue_new root). split; [reflexivity|constructor].
  - rewrite app_length in *. cbn [length] in *. pose proof Hs as Hs'. apply sensible_app in Hs'. destruct Hs' as [Hs' _].
    destruct (IH Hs' ltac:(lia) ltac:(lia)) as (h & w' & q' & <- & Hr). rewrite map_length in *.
    destruct (queue_goes_on root fuel w h w' q' o Hu Hs ltac:(lia) ltac:(lia) Hr) as (w2 & q2 & a & _ & Hr2).
    exists (h ++ [(o, a)]), w2, q2. split; [rewrite map_app; reflexivity|exact Hr2].
Qed.

(** Hypotheses of the theorems, and so: [b] is asked for with high priority after [a] with low, and comes first. *)
Definition some_ops : list op := [Ask id_a false false; Ask id_b true false; Ask id_b false false; Next None; Next None; Next None].
Example some_history : exists w' q', run false 100 q_world (queue_new q_root)
  [(Ask id_a false false, Asked true); (Ask id_b true false, Asked true); (Ask id_b false false, Asked false); (Next None, Got id_b true); (Next None, Got id_a false); (Next None, Nothing)] w' q'.
Proof.
  destruct (history_runs q_root 100 q_world q_world_unused some_ops) as (h & w' & q' & E & Hr); [repeat split; reflexivity|reflexivity|reflexivity|].
  exists w', q'. pose proof (queue_is_two_fifos q_root 100 q_world h w' q' q_world_unused) as Hv. rewrite E in Hv.
  assert (length h = 6%nat) as Hl by (rewrite <- (map_length fst), E; reflexivity). rewrite Hl in Hv. specialize (Hv ltac:(repeat split; reflexivity) ltac:(reflexivity) ltac:(reflexivity) Hr).
  destruct h as [|[o1 a1] [|[o2 a2] [|[o3 a3] [|[o4 a4] [|[o5 a5] [|[o6 a6] [|]]]]]]]; try discriminate Hl. cbn [map fst] in E. unfold some_ops in E. injection E as -> -> -> -> -> ->.
  destruct Hv as (-> & -> & -> & -> & -> & -> & _). exact Hr.
Qed.

(** * What does not hold *)
(** A chunk is asked for only once: not so, if it is asked for with low priority, and once it was sent again with high priority. *)
Theorem queue_twice_refuted : exists h w' q', run false 100 q_world (queue_new q_root) h w' q' /\ never_forgotten id_a h /\ times (is_got id_a) h = 2%nat.
Proof.
  destruct (history_runs q_root 100 q_world q_world_unused [Ask id_a false true; Next None; Ask id_a true true; Next None]) as (h & w' & q' & E & Hr); [repeat split; reflexivity|reflexivity|reflexivity|].
  exists h, w', q'. split; [exact Hr|]. pose proof (queue_is_two_fifos q_root 100 q_world h w' q' q_world_unused) as Hv. rewrite E in Hv.
  assert (length h = 4%nat) as Hl by (rewrite <- (map_length fst), E; reflexivity). rewrite Hl in Hv. specialize (Hv ltac:(repeat split; reflexivity) ltac:(reflexivity) ltac:(reflexivity) Hr).
  destruct h as [|[o1 a1] [|[o2 a2] [|[o3 a3] [|[o4 a4] [|]]]]]; try discriminate Hl. cbn [map fst] in E. injection E as -> -> -> ->.
  destruct Hv as (-> & -> & -> & -> & _). split; [repeat constructor; discriminate|reflexivity].
Qed.
Print Assumptions queue_twice_refuted.

Ltac now_at := match goal with |- exec ?f ?w ?p ?w' ?a => let q := eval hnf in p in change (exec f w q w' a) end.

(** A request that failed can be repeated: not so. Here the second link can not be made; the first one stays, and the chunk counts as
    queued for ever. *)
Theorem queue_retry_refuted : exists w' q', run true 100 q_world (queue_new q_root) [(Ask id_a false true, Failed); (Ask id_a false true, Asked false); (Next None, Nothing)] w' q'.
Proof.
  eexists _, _. eapply r_op; [|eapply r_op; [|eapply r_op; [|apply r_end]]].
  - now_at. eapply ex_sys; [apply s_mkdir; reflexivity|]. now_at. eapply ex_sys; [apply s_opendir; reflexivity|].
    now_at. eapply ex_sys; [apply s_readlink_noent; vm_compute; reflexivity|]. now_at. eapply ex_sys; [apply s_mkdir; vm_compute; reflexivity|].
    now_at. eapply ex_sys; [apply s_mkdir; vm_compute; reflexivity|]. now_at. eapply ex_sys; [apply s_symlink; vm_compute; reflexivity|].
    now_at. eapply ex_sys; [apply (s_fault true _ _ ENOMEM); reflexivity|]. now_at. apply ex_ret.
  - now_at. eapply ex_sys; [eapply s_readlink; vm_compute; reflexivity|]. now_at. apply ex_ret.
  - now_at. apply ex_ret.
Qed.
Print Assumptions queue_retry_refuted.

(** The cache directory may be one that was used before: not so. The links of an earlier session make a request count as queued. *)
Definition used_world : Posix.world :=
  {| w_names := [(q_root, NDir); (in_cache q_root s_chunks, NDir); (in_cache q_root s_low, NDir);
                 (in_cache q_root (s_chunks ++ 47 :: chunk_id_format id_a), NLink (queue_pos false 0)); (in_cache q_root (queue_pos false 0), NLink (chunk_id_format id_a))];
     w_inodes := []; w_fds := [] |}.
Theorem queue_reuse_refuted :
  (exists w' q', run false 100 q_world (queue_new q_root) [(Ask id_a false true, Asked true)] w' q' /\ (forall p, name_at w' p = name_at used_world p)) /\
  (exists w' q', run false 100 used_world (queue_new q_root) [(Ask id_a false true, Asked false); (Next None, Nothing)] w' q').
Proof.
  split.
  - eexists _, _. split.
    + eapply r_op; [|apply r_end].
      now_at. eapply ex_sys; [apply s_mkdir; reflexivity|]. now_at. eapply ex_sys; [apply s_opendir; reflexivity|].
      now_at. eapply ex_sys; [apply s_readlink_noent; vm_compute; reflexivity|]. now_at. eapply ex_sys; [apply s_mkdir; vm_compute; reflexivity|].
      now_at. eapply ex_sys; [apply s_mkdir; vm_compute; reflexivity|]. now_at. eapply ex_sys; [apply s_symlink; vm_compute; reflexivity|].
      now_at. eapply ex_sys; [apply s_symlink; vm_compute; reflexivity|]. now_at. apply ex_ret.
    + intros p. unfold name_at. match goal with |- assoc (w_names ?a) p = assoc (w_names ?b) p => let x := eval vm_compute in (w_names a) in let y := eval vm_compute in (w_names b) in
        change (assoc x p = assoc y p) end. cbn [assoc].
      repeat match goal with |- context [beq ?a p] => let E := fresh in destruct (beq a p) eqn:E; [apply beq_eq in E; subst p; reflexivity|] end. reflexivity.
  - eexists _, _. eapply r_op; [|eapply r_op; [|apply r_end]].
    + now_at. eapply ex_sys; [eapply s_mkdir_exist; reflexivity|]. now_at. eapply ex_sys; [apply s_opendir; reflexivity|].
      now_at. eapply ex_sys; [eapply s_readlink; vm_compute; reflexivity|]. now_at. apply ex_ret.
    + now_at. apply ex_ret.
Qed.
Print Assumptions queue_reuse_refuted.

(** ca_remote_forget_chunk for a chunk that was never asked for: undefined behaviour (it frees a pointer that was not set). A peer that
    sends a chunk nobody asked for gets the receiving end to do that. *)
Theorem forget_unasked_refuted : exists w', exec false q_world (forget_chunk 100 (opened (queue_new q_root)) id_a) w' UB.
Proof.
  eexists. now_at. eapply ex_sys; [apply s_readlink_noent; vm_compute; reflexivity|]. now_at. eapply ex_sys; [apply s_unlink_noent; vm_compute; reflexivity|].
  now_at. eapply ex_sys; [apply s_unlink_noent; vm_compute; reflexivity|]. now_at. apply ex_ret.
Qed.
Print Assumptions forget_unasked_refuted.

(** Pending requests are reported: whenever there are any. Not only then: a request that was raised or forgotten still counts. *)
Theorem pending_reported root fuel w h w' q' : unused root w -> sensible nothing (map fst h) -> N.of_nat (length h) + 1 < two64 ->
  2 * N.of_nat (length h) < N.of_nat fuel -> run false fuel w (queue_new root) h w' q' ->
  has_pending_requests q' = false -> waiting_high (after nothing (map fst h)) = [] /\ waiting_low (after nothing (map fst h)) = [].
Proof.
  intros Hu Hs Hl Hf Hr Hp. destruct (run_inv root fuel w (queue_new root) h w' q' Hr nothing _ (inv_new root w Hu) Hs) as (_ & (T & Hi) & Hb); [intros [|]; cbn; lia|cbn; lia|].
  unfold has_pending_requests in Hp. destruct (q_open q') eqn:Ho; cbn [andb] in Hp.
  - apply orb_false_elim in Hp. destruct Hp as [H1 H2]. split; [apply (empty_wait root _ _ _ _ true Hi)|apply (empty_wait root _ _ _ _ false Hi)]; cbn [q_end q_start]; lia.
  - pose proof (i_wait _ _ _ _ _ Hi) as Hw. pose proof (Hw true) as H1. pose proof (Hw false) as H2. rewrite (i_open _ _ _ _ _ Hi Ho) in H1, H2. unfold dropN in H1, H2. rewrite skipn_nil in H1, H2. auto.
Qed.
Print Assumptions pending_reported.
Theorem pending_exact_refuted : exists h w' q', run false 100 q_world (queue_new q_root) h w' q' /\ has_pending_requests q' = true /\
  waiting_high (after nothing (map fst h)) = [] /\ waiting_low (after nothing (map fst h)) = [].
Proof.
  exists [(Ask id_a false true, Asked true); (Forget id_a, Forgot)]. eexists _, _. split.
  - eapply r_op; [|eapply r_op; [|apply r_end]].
    + now_at. eapply ex_sys; [apply s_mkdir; reflexivity|]. now_at. eapply ex_sys; [apply s_opendir; reflexivity|].
      now_at. eapply ex_sys; [apply s_readlink_noent; vm_compute; reflexivity|]. now_at. eapply ex_sys; [apply s_mkdir; vm_compute; reflexivity|].
      now_at. eapply ex_sys; [apply s_mkdir; vm_compute; reflexivity|]. now_at. eapply ex_sys; [apply s_symlink; vm_compute; reflexivity|].
      now_at. eapply ex_sys; [apply s_symlink; vm_compute; reflexivity|]. now_at. apply ex_ret.
    + now_at. eapply ex_sys; [eapply s_readlink; vm_compute; reflexivity|]. now_at. eapply ex_sys; [eapply s_unlink; [vm_compute; reflexivity|discriminate]|].
      now_at. eapply ex_sys; [eapply s_unlink; [vm_compute; reflexivity|discriminate]|]. now_at. eapply ex_sys; [apply s_unlink_noent; vm_compute; reflexivity|].
      now_at. eapply ex_sys; [apply s_unlink_noent; vm_compute; reflexivity|]. now_at. apply ex_ret.
  - split; [vm_compute; reflexivity|]. split; vm_compute; reflexivity.
Qed.
Print Assumptions pending_exact_refuted.
