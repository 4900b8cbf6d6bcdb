(** The queue of requests: whatever fails, a request is handed out at most once for each time it was queued. *)
From Verif Require Import Base Locator Properties_Locator Number NumberProofs ChunkId ChunkIdProofs Posix PosixProofs ChunkFile Cache CacheProofs1 CacheProofs3 StoreSpec StoreProofs1 StoreProofs4 Queue QueueSpec QueueProofs1 QueueProofs2 QueueProofs3.
Local Open Scope N_scope.

Lemma readlink_exec f : forall fuel p l w w' r, exec f w (readlink_malloc fuel p l) w' r -> w' = w /\ (forall t, r = Ok t -> name_at w p = Some (NLink t)).
Proof.
  induction fuel as [|fuel IH]; intros p l w w' r H; cbn [readlink_malloc] in H; [inversion H|].
  apply exec_sys_inv in H. destruct H as (w1 & r1 & Hs & Hx).
  assert (w1 = w /\ (forall b, r1 = RData b -> exists t, name_at w p = Some (NLink t) /\ b = takeN (l - 1) t)) as [-> Hb].
  { inversion Hs; subst; (split; [reflexivity|intros b E; try discriminate E]). injection E as <-. eauto. }
  destruct r1 as [| |b| |e]; try (apply exec_ret_inv in Hx; destruct Hx as [-> ->]; split; [reflexivity|intros t E; discriminate E]).
  destruct (Hb b eq_refl) as (t & Hn & ->). destruct (N.ltb_spec (len (takeN (l - 1) t)) (l - 1)) as [Hlt|Hge].
  - apply exec_ret_inv in Hx. destruct Hx as [-> ->]. split; [reflexivity|]. intros t' E. injection E as <-. rewrite len_takeN in Hlt. rewrite takeN_all by lia. exact Hn.
  - apply IH in Hx. exact Hx.
Qed.

Section Count.
Context (root : list N).
Notation slot := (slot root). Notation mark := (mark root). Notation folder := (folder root).

Definition shrunk (w w' : Posix.world) : Prop := forall hi n, name_at w' (slot hi n) = None \/ name_at w' (slot hi n) = name_at w (slot hi n).
Lemma shrunk_refl w : shrunk w w. Proof. intros hi n. auto. Qed.
Lemma shrunk_trans a b c : shrunk a b -> shrunk b c -> shrunk a c.
Proof. intros H1 H2 hi n. destruct (H2 hi n) as [->| ->]; [auto|apply H1]. Qed.

Lemma sys_shrunk f w c w' r : (match c with
    | SMkdir p => p = root \/ exists d, no_slash d /\ p = folder d
    | SSymlink _ p => exists id, p = mark id
    | SUnlink _ | SRmdir _ | SReadlink _ _ | SOpenDir _ => True
    | _ => False end) -> sys f w c w' r -> shrunk w w'.
Proof.
  intros Hc H. inversion H; subst; try contradiction; try apply shrunk_refl; intros hi pos.
  - right. apply name_put_other. destruct Hc as [->|(d & Hd & ->)]; [apply root_slot|apply dir_slot; exact Hd].
  - rewrite name_del. destruct (beq _ _); auto.
  - rewrite name_del. destruct (beq _ _); auto.
  - right. apply name_put_other. destruct Hc as [id ->]. apply not_eq_sym, slot_mark.
Qed.

Lemma unlink_shrunk f w prefix id s w' r : exec f w (chunk_file_unlink prefix id s) w' r -> shrunk w w'.
Proof.
  unfold chunk_file_unlink. intros H. apply exec_sys_inv in H. destruct H as (w1 & r1 & Hs & Hx). apply sys_shrunk in Hs; [|exact I].
  destruct r1; try (apply exec_ret_inv in Hx; destruct Hx as [-> _]; exact Hs). apply exec_sys_inv in Hx. destruct Hx as (w2 & r2 & Hs2 & Hx).
  apply exec_ret_inv in Hx. destruct Hx as [-> _]. eapply shrunk_trans; [exact Hs|]. eapply sys_shrunk; [|exact Hs2]. exact I.
Qed.
Lemma remove_shrunk f w prefix id w' r : exec f w (chunk_file_remove prefix id) w' r -> shrunk w w'.
Proof.
  unfold chunk_file_remove. intros H. apply exec_bind in H. destruct H as (w1 & r1 & H1 & Hx). apply unlink_shrunk in H1.
  destruct r1 as [| [] | |]; try (apply exec_ret_inv in Hx; destruct Hx as [-> _]; exact H1); (eapply shrunk_trans; [exact H1|]; eapply unlink_shrunk; exact Hx).
Qed.

Definition same_queue (q q' : queue) : Prop := q_path q' = q_path q /\ forall b, q_start b q' = q_start b q /\ q_end b q' = q_end b q.
Lemma same_refl q : same_queue q q. Proof. split; auto. Qed.

Ltac stop H := apply exec_ret_inv in H; destruct H as [-> H].

Lemma add_count f w q id hi w' q' r : q_path q = root -> exec f w (add_request q id hi) w' (q', r) ->
  (shrunk w w' /\ q' = q /\ r <> Ok true) \/
  exists w1, shrunk w w1 /\ w' = put_name w1 (slot hi (q_end hi q)) (NLink (chunk_id_format id)) /\ q' = end_next hi q /\ r = Ok true.
Proof.
  intros Hp H. unfold add_request in H. change (if hi then end_high q else end_low q) with (q_end hi q) in H. unfold chunk_link in H. rewrite Hp in H.
  assert (Hlinks : forall w, exec f w (Sys (SSymlink (queue_pos hi (q_end hi q)) (in_cache root (s_chunks ++ 47 :: chunk_id_format id))) (fun r =>
      match r with
      | RNum _ => Sys (SSymlink (chunk_id_format id) (in_cache root (queue_pos hi (q_end hi q)))) (fun r =>
          match r with RNum _ => Ret (end_next hi q, Ok true) | RFail e => Ret (q, Err e) | _ => Ret (q, UB) end)
      | RFail e => Ret (q, Err e)
      | _ => Ret (q, UB) end)) w' (q', r) ->
    (shrunk w w' /\ q' = q /\ r <> Ok true) \/
    exists w1, shrunk w w1 /\ w' = put_name w1 (slot hi (q_end hi q)) (NLink (chunk_id_format id)) /\ q' = end_next hi q /\ r = Ok true).
  { clear H. intros w0 H. apply exec_sys_inv in H. destruct H as (w1 & r1 & Hs & H).
    assert (shrunk w0 w1) as S1 by (eapply sys_shrunk; [|exact Hs]; exists id; reflexivity).
    assert (Hfail : forall x, x <> Ok true -> exec f w1 (Ret (q, x)) w' (q', r) -> (shrunk w0 w' /\ q' = q /\ r <> Ok true) \/
      exists w1, shrunk w0 w1 /\ w' = put_name w1 (slot hi (q_end hi q)) (NLink (chunk_id_format id)) /\ q' = end_next hi q /\ r = Ok true).
    { intros x Hx HH. stop HH. injection HH as -> ->. left. auto. }
    destruct r1; try (eapply Hfail; [|exact H]; discriminate). clear Hfail.
    apply exec_sys_inv in H. destruct H as (w2 & r2 & Hs2 & H). destruct (sys_symlink _ _ _ _ _ _ Hs2) as [(_ & -> & e & -> & _)|Hr].
    - stop H. injection H as -> ->. left. split; [exact S1|]. split; [reflexivity|discriminate].
    - inversion Hs2; subst; stop H; injection H as -> ->; [left; split; [exact S1|]; split; [reflexivity|discriminate]| |left; split; [exact S1|]; split; [reflexivity|discriminate]|left; split; [exact S1|]; split; [reflexivity|discriminate]].
      right. exists w1. auto. }
  destruct (q_end hi q =? 0).
  - apply exec_sys_inv in H. destruct H as (w1 & r1 & Hs1 & H). apply exec_sys_inv in H. destruct H as (w2 & r2 & Hs2 & H).
    assert (shrunk w w2) as S2.
    { eapply shrunk_trans; eapply sys_shrunk; [|exact Hs1| |exact Hs2]; right; eexists; (split; [|reflexivity]); [apply chunks_no_slash|apply level_no_slash]. }
    apply Hlinks in H. destruct H as [(A & B)|(w3 & A & B)]; [left|right; exists w3]; (split; [eapply shrunk_trans; [exact S2|exact A]|exact B]).
  - apply Hlinks. exact H.
Qed.

Lemma enqueue_count f fuel w q id hi again w' q' r : q_path q = root -> exec f w (enqueue_request fuel q id hi again) w' (q', r) ->
  (shrunk w w' /\ same_queue q q' /\ r <> Ok true) \/
  exists w1 q1, shrunk w w1 /\ same_queue q q1 /\ w' = put_name w1 (slot hi (q_end hi q)) (NLink (chunk_id_format id)) /\ q' = end_next hi q1 /\ r = Ok true.
Proof.
  intros Hp H. unfold enqueue_request in H. apply exec_bind in H. destruct H as (w1 & [q1 r1] & H1 & H).
  assert (shrunk w w1 /\ same_queue q q1 /\ q_path q1 = root) as (S1 & Q1 & P1).
  { unfold init_cache in H1. destruct (q_open q); [stop H1; injection H1 as -> ->; split; [apply shrunk_refl|]; split; [apply same_refl|exact Hp]|].
    apply exec_sys_inv in H1. destruct H1 as (w2 & r2 & Hs2 & H1). apply exec_sys_inv in H1. destruct H1 as (w3 & r3 & Hs3 & H1). rewrite Hp in Hs2, Hs3.
    assert (shrunk w w3) as S3 by (eapply shrunk_trans; eapply sys_shrunk; [|exact Hs2| |exact Hs3]; [left; reflexivity|exact I]).
    destruct r3; stop H1; injection H1 as -> ->; (split; [exact S3|]); (split; [split; [reflexivity|intros [|]; split; reflexivity]|exact Hp]). }
  assert (Hadd : forall w2, shrunk w w2 -> exec f w2 (add_request q1 id hi) w' (q', r) ->
    (shrunk w w' /\ same_queue q q' /\ r <> Ok true) \/
    exists w1 q1, shrunk w w1 /\ same_queue q q1 /\ w' = put_name w1 (slot hi (q_end hi q)) (NLink (chunk_id_format id)) /\ q' = end_next hi q1 /\ r = Ok true).
  { intros w2 S2 HH. apply add_count in HH; [|exact P1]. destruct HH as [(A & -> & B)|(w3 & A & -> & -> & ->)].
    - left. split; [eapply shrunk_trans; eassumption|]. auto.
    - right. exists w3, q1. split; [eapply shrunk_trans; eassumption|]. split; [exact Q1|]. destruct Q1 as [_ Q1]. rewrite (proj2 (Q1 hi)). auto. }
  assert (Hfail : forall w2 x, shrunk w w2 -> x <> Ok true -> exec f w2 (Ret (q1, x)) w' (q', r) ->
    (shrunk w w' /\ same_queue q q' /\ r <> Ok true) \/
    exists w1 q1, shrunk w w1 /\ same_queue q q1 /\ w' = put_name w1 (slot hi (q_end hi q)) (NLink (chunk_id_format id)) /\ q' = end_next hi q1 /\ r = Ok true).
  { intros w2 x S2 Hx HH. stop HH. injection HH as -> ->. left. auto. }
  destruct r1 as [u|e| |]; try (eapply Hfail; [exact S1| |exact H]; discriminate).
  unfold enqueue_open in H. apply exec_bind in H. destruct H as (w2 & r2 & H2 & H). apply readlink_exec in H2. destruct H2 as [-> _].
  destruct r2 as [qpos|e| |]; try (eapply Hfail; [exact S1| |exact H]; discriminate).
  - destruct (startswith qpos (queue_name hi ++ [47])); [eapply Hfail; [exact S1| |exact H]; discriminate|].
    destruct hi; cbn [negb] in H; [|eapply Hfail; [exact S1| |exact H]; discriminate].
    destruct (startswith qpos (s_low ++ [47])); [|eapply Hfail; [exact S1| |exact H]; discriminate].
    destruct (safe_atou64 _) as [old|e| |]; try (eapply Hfail; [exact S1| |exact H]; discriminate).
    destruct ((old <? start_low q1) && negb again); [eapply Hfail; [exact S1| |exact H]; discriminate|].
    apply exec_sys_inv in H. destruct H as (w2 & r2 & Hs2 & H). assert (shrunk w w2) as S2 by (eapply shrunk_trans; [exact S1|eapply sys_shrunk; [|exact Hs2]; exact I]).
    destruct r2; try (eapply Hfail; [exact S2| |exact H]; discriminate).
    apply exec_sys_inv in H. destruct H as (w3 & r3 & Hs3 & H). assert (shrunk w w3) as S3 by (eapply shrunk_trans; [exact S2|eapply sys_shrunk; [|exact Hs3]; exact I]).
    destruct r3; try (eapply Hfail; [exact S3| |exact H]; discriminate). eapply Hadd; eassumption.
  - destruct e; try (eapply Hfail; [exact S1| |exact H]; discriminate). eapply Hadd; eassumption.
Qed.

Lemma forget_count f fuel w q id w' r : exec f w (forget_chunk fuel q id) w' r -> shrunk w w'.
Proof.
  unfold forget_chunk. destruct (negb (q_open q)); [intros H; stop H; apply shrunk_refl|]. intros H. apply exec_bind in H. destruct H as (w1 & r1 & H1 & H).
  apply readlink_exec in H1. destruct H1 as [-> _].
  assert (Hfile : forall w2 b, shrunk w w2 -> exec f w2 (forget_file q id b) w' r -> shrunk w w').
  { intros w2 b S2 HH. unfold forget_file in HH. apply exec_bind in HH. destruct HH as (w3 & r3 & H3 & HH). apply remove_shrunk in H3.
    eapply shrunk_trans; [exact S2|]. destruct b; [destruct r3 as [| [] | |]|]; stop HH; exact H3. }
  destruct r1 as [qpos|e| |]; try (stop H; apply shrunk_refl).
  - destruct (match startswith qpos (s_low ++ [47]) with Some p => Some p | None => startswith qpos (s_high ++ [47]) end); [|stop H; apply shrunk_refl].
    destruct (safe_atou64 _); try (stop H; apply shrunk_refl).
    apply exec_sys_inv in H. destruct H as (w2 & r2 & Hs2 & H). assert (shrunk w w2) as S2 by (eapply sys_shrunk; [|exact Hs2]; exact I).
    destruct r2; try (stop H; exact S2).
    apply exec_sys_inv in H. destruct H as (w3 & r3 & Hs3 & H). assert (shrunk w w3) as S3 by (eapply shrunk_trans; [exact S2|eapply sys_shrunk; [|exact Hs3]; exact I]).
    destruct r3; try (stop H; exact S3). eapply Hfile; eassumption.
  - destruct e; try (stop H; apply shrunk_refl). eapply Hfile; [apply shrunk_refl|exact H].
Qed.

(** How many requests for [id] are in the queue from position [a] on, up to [k] positions. *)
Fixpoint count (w : Posix.world) (hi : bool) (id : list N) (a : N) (k : nat) : nat :=
  match k with
  | O => O
  | S k => ((match name_at w (slot hi a) with Some (NLink t) => if beq t (chunk_id_format id) then 1 else 0 | _ => 0 end) + count w hi id (a + 1) k)%nat
  end.
Definition pending (w : Posix.world) (q : queue) (id : list N) (hi : bool) : nat := count w hi id (q_start hi q) (N.to_nat (q_end hi q - q_start hi q)).

Lemma count_shrunk w w' hi id : shrunk w w' -> forall k a, (count w' hi id a k <= count w hi id a k)%nat.
Proof. intros S. induction k as [|k IH]; intros a; [apply Nat.le_refl|]. cbn [count]. specialize (IH (a + 1)). destruct (S hi a) as [->| ->]; lia. Qed.
Lemma count_same w w' hi id : (forall n, name_at w' (slot hi n) = name_at w (slot hi n)) -> forall k a, count w' hi id a k = count w hi id a k.
Proof. intros S. induction k as [|k IH]; intros a; [reflexivity|]. cbn [count]. rewrite IH, S. reflexivity. Qed.
Lemma count_put w hi b n x id : forall k a, (count (put_name w (slot b n) (NLink (chunk_id_format x))) hi id a k <= count w hi id a k + (if Bool.eqb hi b && N.leb a n && N.ltb n (a + N.of_nat k)%N && beq (chunk_id_format x) (chunk_id_format id) then 1 else 0))%nat.
Proof.
  induction k as [|k IH]; intros a; [cbn; lia|]. cbn [count]. specialize (IH (a + 1)). rewrite name_put. destruct (beq (slot b n) (slot hi a)) eqn:E.
  - apply beq_eq in E. apply slot_inj in E. destruct E as [-> ->]. rewrite Bool.eqb_reflx in *. cbn [andb] in *.
    replace (a + 1 <=? a) with false in IH by lia. replace (a <=? a) with true by lia. replace (a <? a + N.of_nat (S k)) with true by lia. cbn [andb] in *.
    destruct (beq (chunk_id_format x) (chunk_id_format id)); lia.
  - assert (Hn : Bool.eqb hi b = true -> n <> a). { intros F ->. apply Bool.eqb_prop in F. subst b. rewrite beq_refl in E. discriminate. }
    destruct (Bool.eqb hi b); cbn [andb] in *; [|lia]. specialize (Hn eq_refl).
    replace (n <? a + 1 + N.of_nat k) with (n <? a + N.of_nat (S k)) in IH by lia. replace (a + 1 <=? n) with (a <=? n) in IH by lia. lia.
Qed.
Lemma count_split w hi id : forall k a j, count w hi id a (k + j) = (count w hi id a k + count w hi id (a + N.of_nat k) j)%nat.
Proof.
  induction k as [|k IH]; intros a j; [cbn; rewrite N.add_0_r; reflexivity|]. cbn [count Nat.add]. rewrite IH. replace (a + 1 + N.of_nat k) with (a + N.of_nat (S k)) by lia. lia.
Qed.

Record sane (w : Posix.world) (q : queue) : Prop := {
  n_path : q_path q = root;
  n_start : forall b, q_start b q <= q_end b q;
  n_free : forall b n, q_end b q <= n -> name_at w (slot b n) = None;
  n_form : forall b n t, name_at w (slot b n) = Some (NLink t) -> exists id, id_ok id = true /\ t = chunk_id_format id
}.
Lemma sane_shrunk w w' q : sane w q -> shrunk w w' -> sane w' q.
Proof.
  intros [A B C D] S. constructor; auto.
  - intros b n H. destruct (S b n) as [->| ->]; auto.
  - intros b n t H. destruct (S b n) as [E|E]; rewrite E in H; [discriminate|eauto].
Qed.
Lemma sane_queue w q q' : sane w q -> same_queue q q' -> sane w q'.
Proof.
  intros [A B C D] [P Q]. constructor; [congruence| | |exact D].
  - intros b. destruct (Q b) as [-> ->]. auto.
  - intros b n. rewrite (proj2 (Q b)). auto.
Qed.
Lemma pending_queue w q q' id b : same_queue q q' -> pending w q' id b = pending w q id b.
Proof. intros [_ Q]. unfold pending. destruct (Q b) as [-> ->]. reflexivity. Qed.

Lemma sane_put w q hi x : sane w q -> id_ok x = true -> (forall b, q_end b q + 1 < two64) ->
  sane (put_name w (slot hi (q_end hi q)) (NLink (chunk_id_format x))) (end_next hi q) /\
  forall id b, (pending (put_name w (slot hi (q_end hi q)) (NLink (chunk_id_format x))) (end_next hi q) id b <= pending w q id b + (if Bool.eqb b hi && beq (chunk_id_format x) (chunk_id_format id) then 1 else 0))%nat.
Proof.
  intros [A B C D] Hx Hmax. split; [constructor|].
  - destruct hi; exact A.
  - intros b. rewrite end_next_start, end_next_end by auto. specialize (B b). destruct (Bool.eqb b hi); lia.
  - intros b n. rewrite end_next_end by auto. intros H. rewrite name_put_other; [apply C; destruct (Bool.eqb b hi); lia|].
    intros E. apply slot_inj in E. destruct E as [<- <-]. rewrite Bool.eqb_reflx in H. lia.
  - intros b n t H. rewrite name_put in H. destruct (beq _ _); [injection H as <-; eauto|eauto].
  - intros id b. unfold pending. rewrite end_next_start, end_next_end by auto. specialize (B b).
    destruct (Bool.eqb b hi) eqn:E; cbn [andb].
    + apply Bool.eqb_prop in E. subst b. replace (N.to_nat (q_end hi q + 1 - q_start hi q)) with (N.to_nat (q_end hi q - q_start hi q) + 1)%nat by lia. rewrite count_split.
      pose proof (count_put w hi hi (q_end hi q) x id (N.to_nat (q_end hi q - q_start hi q)) (q_start hi q)) as H1.
      replace (q_end hi q <? q_start hi q + N.of_nat (N.to_nat (q_end hi q - q_start hi q))) with false in H1 by lia.
      rewrite Bool.andb_false_r in H1. cbn [andb] in H1.
      replace (q_start hi q + N.of_nat (N.to_nat (q_end hi q - q_start hi q))) with (q_end hi q) by lia. cbn [count]. rewrite name_put_same. lia.
    + pose proof (count_put w b hi (q_end hi q) x id (N.to_nat (q_end b q - q_start b q)) (q_start b q)) as H1. rewrite E in H1. cbn [andb] in H1. lia.
Qed.

Lemma sane_next w q hi : sane w q -> q_start hi q < q_end hi q -> (forall b, q_end b q + 1 < two64) ->
  sane w (start_next hi q) /\ (forall id b, pending w q id b = (pending w (start_next hi q) id b + if Bool.eqb b hi then match name_at w (slot hi (q_start hi q)) with Some (NLink t) => if beq t (chunk_id_format id) then 1 else 0 | _ => 0 end else 0)%nat).
Proof.
  intros [A B C D] Hlt Hmax. pose proof (Hmax hi) as Hm. split; [constructor|].
  - destruct hi; exact A.
  - intros b. rewrite start_next_end, start_next_start by lia. specialize (B b). destruct (Bool.eqb b hi) eqn:E; [apply Bool.eqb_prop in E; subst b|]; lia.
  - intros b n. rewrite start_next_end. auto.
  - exact D.
  - intros id b. unfold pending. rewrite start_next_end, start_next_start by lia. destruct (Bool.eqb b hi) eqn:E; [|lia]. apply Bool.eqb_prop in E. subst b.
    replace (N.to_nat (q_end hi q - q_start hi q)) with (S (N.to_nat (q_end hi q - (q_start hi q + 1)))) by lia. cbn [count]. lia.
Qed.

Lemma dequeue_count f only : forall fuel w q w' q' r, sane w q -> (forall b, q_end b q + 1 < two64) -> exec f w (dequeue_loop fuel q only) w' (q', r) ->
  w' = w /\ sane w q' /\ (forall b, q_end b q' = q_end b q) /\
  (forall id, (pending w q' id true + pending w q' id false + match r with Ok (x, _) => if beq x id then 1 else 0 | _ => 0 end <= pending w q id true + pending w q id false)%nat).
Proof.
  induction fuel as [|fuel IH]; intros w q w' q' r S Hmax H; [inversion H|]. cbn [dequeue_loop] in H. destruct (pick q only) as [[hi n]|] eqn:Ep.
  2: { stop H. injection H as -> ->. split; [reflexivity|]. split; [exact S|]. split; [reflexivity|]. intros id. lia. }
  apply pick_some in Ep. destruct Ep as (-> & Hlt & _). apply exec_bind in H. destruct H as (w1 & r1 & H1 & H). apply readlink_exec in H1. destruct H1 as [-> Hr].
  rewrite (n_path _ _ S) in Hr. change (in_cache root (queue_pos hi (q_start hi q))) with (slot hi (q_start hi q)) in Hr.
  assert (Hfail : forall x, (forall y, x <> Ok y) -> exec f w (Ret (q, x)) w' (q', r) -> w' = w /\ sane w q' /\ (forall b, q_end b q' = q_end b q) /\
    (forall id, (pending w q' id true + pending w q' id false + match r with Ok (x, _) => if beq x id then 1 else 0 | _ => 0 end <= pending w q id true + pending w q id false)%nat)).
  { intros x Hx HH. stop HH. injection HH as -> ->. split; [reflexivity|]. split; [exact S|]. split; [reflexivity|]. intros id. destruct x as [y|e| |]; [exfalso; exact (Hx y eq_refl)|lia|lia|lia]. }
  destruct (sane_next w q hi S Hlt Hmax) as [S1 Hc].
  destruct r1 as [ids|e| |]; try (eapply Hfail; [|exact H]; discriminate).
  - specialize (Hr ids eq_refl). destruct (n_form _ _ S _ _ _ Hr) as (id & Hid & ->). rewrite (parse_format id Hid) in H. stop H. injection H as -> ->.
    split; [reflexivity|]. split; [exact S1|]. split; [intros b; apply start_next_end|]. intros x. rewrite Hr in Hc. pose proof (Hc x true) as H1. pose proof (Hc x false) as H2.
    destruct (beq id x) eqn:E; [apply beq_eq in E; subst x; rewrite beq_refl in *; destruct hi; cbn [Bool.eqb] in *; lia|lia].
  - destruct e; try (eapply Hfail; [|exact H]; discriminate). apply IH in H; [|exact S1|intros b; rewrite start_next_end; auto].
    destruct H as (-> & S2 & He & Hle). split; [reflexivity|]. split; [exact S2|]. split; [intros b; rewrite He; apply start_next_end|].
    intros id. specialize (Hle id). rewrite (Hc id true), (Hc id false). lia.
Qed.

(** One operation. *)
Lemma op_count f fuel w q o w' q' a : sane w q -> (forall b, q_end b q + 1 < two64) -> (match o with Ask id _ _ => id_ok id = true | _ => True end) ->
  exec f w (op_prog fuel q o) w' (q', a) ->
  sane w' q' /\ (forall b, q_end b q' <= q_end b q + 1) /\
  (forall id, id_ok id = true -> (pending w' q' id true + pending w' q' id false + (if is_got id (o, a) then 1 else 0) <=
    pending w q id true + pending w q id false + (if is_queued id (o, a) then 1 else 0))%nat).
Proof.
  intros S Hmax Hok H. destruct o as [x hi again|only|x]; cbn [op_prog] in H; apply exec_bind in H.
  - destruct H as (w1 & [q1 r1] & H1 & H). cbn [fst snd] in H. stop H. injection H as -> ->. apply enqueue_count in H1; [|exact (n_path _ _ S)].
    destruct H1 as [(S1 & Q1 & Hr)|(w2 & q2 & S2 & Q2 & -> & -> & ->)].
    + pose proof (sane_shrunk _ _ _ S S1) as S'. split; [exact (sane_queue _ _ _ S' Q1)|]. split; [intros b; rewrite (proj2 (proj2 Q1 b)); lia|].
      intros id Hid. rewrite !(pending_queue _ _ _ _ _ Q1). pose proof (fun b => count_shrunk _ _ b id S1 (N.to_nat (q_end b q - q_start b q)) (q_start b q)) as Hc.
      unfold pending. pose proof (Hc true). pose proof (Hc false). destruct r1 as [[|]|e| |]; cbn [is_got is_queued snd]; try lia; destruct (beq x id); lia.
    + pose proof (sane_queue _ _ _ (sane_shrunk _ _ _ S S2) Q2) as S'. pose proof Q2 as [P2 Q2']. rewrite <- (proj2 (Q2' hi)).
      assert (forall b, q_end b q2 + 1 < two64) as Hm2 by (intros b; rewrite (proj2 (Q2' b)); auto).
      destruct (sane_put w2 q2 hi x S' Hok Hm2) as [S3 Hp]. split; [exact S3|].
      split; [intros b; rewrite end_next_end by auto; rewrite (proj2 (Q2' b)); destruct (Bool.eqb b hi); lia|].
      intros id Hid. pose proof (Hp id true) as Ht. pose proof (Hp id false) as Hf. rewrite (pending_queue _ _ _ _ true Q2) in Ht. rewrite (pending_queue _ _ _ _ false Q2) in Hf.
      pose proof (fun b => count_shrunk _ _ b id S2 (N.to_nat (q_end b q - q_start b q)) (q_start b q)) as Hc. unfold pending in *. pose proof (Hc true). pose proof (Hc false).
      cbn [is_got is_queued snd]. replace (beq (chunk_id_format x) (chunk_id_format id)) with (beq x id) in Ht, Hf.
      2: { destruct (beq x id) eqn:E; [apply beq_eq in E; subst; symmetry; apply beq_refl|]. symmetry. apply beq_neq. intros F. apply format_inj in F; auto. subst. rewrite beq_refl in E. discriminate. }
      destruct hi, (beq x id); cbn [Bool.eqb andb] in *; lia.
  - destruct H as (w1 & [q1 r1] & H1 & H). cbn [fst snd] in H. stop H. injection H as -> ->. unfold dequeue_request in H1. destruct (q_open q).
    + apply dequeue_count in H1; [|exact S|exact Hmax]. destruct H1 as (-> & S1 & He & Hle). split; [exact S1|]. split; [intros b; rewrite He; lia|].
      intros id _. specialize (Hle id). cbn [is_queued]. unfold is_got. destruct r1 as [[y h]| [] | |]; cbn [snd]; lia.
    + stop H1. injection H1 as -> ->. split; [exact S|]. split; [intros b; lia|]. intros id _. cbn. lia.
  - destruct H as (w1 & r1 & H1 & H). stop H. injection H as -> ->. apply forget_count in H1. split; [exact (sane_shrunk _ _ _ S H1)|]. split; [intros b; lia|].
    intros id _. pose proof (fun b => count_shrunk _ _ b id H1 (N.to_nat (q_end b q - q_start b q)) (q_start b q)) as Hc. unfold pending. pose proof (Hc true). pose proof (Hc false).
    destruct r1; cbn [is_got is_queued snd]; lia.
Qed.

Lemma run_count f fuel id w q h w' q' : id_ok id = true -> run f fuel w q h w' q' -> sane w q -> (forall b, q_end b q + N.of_nat (length h) + 1 < two64) ->
  Forall (fun e => match fst e with Ask x _ _ => id_ok x = true | _ => True end) h ->
  (pending w' q' id true + pending w' q' id false + times (is_got id) h <= pending w q id true + pending w q id false + times (is_queued id) h)%nat.
Proof.
  intros Hid H. induction H as [w q|w q o w1 q1 a h w2 q2 Hx H IH|w q w1 h w2 q2 He H IH]; intros S Hmax Hok.
  - unfold times. cbn. lia.
  - inversion Hok as [|? ? Ho Hok']; subst. cbn [length] in Hmax.
    destruct (op_count f fuel w q o w1 q1 a S) as (S1 & He & Hle); [intros b; specialize (Hmax b); lia|exact Ho|exact Hx|].
    assert (forall b, q_end b q1 + N.of_nat (length h) + 1 < two64) as Hm1 by (intros b; specialize (Hmax b); specialize (He b); lia).
    specialize (IH S1 Hm1 Hok'). specialize (Hle id Hid). unfold times in *. cbn [filter]. destruct (is_got id (o, a)), (is_queued id (o, a)); cbn [length]; lia.
  - rewrite (n_path _ _ S) in He. destruct He as [He _].
    assert (Hs : forall b n, name_at w1 (slot b n) = name_at w (slot b n)) by (intros b n; apply He; apply of_slot).
    assert (sane w1 q) as S1 by (apply (sane_shrunk w); [exact S|intros b n; right; apply Hs]).
    specialize (IH S1 Hmax Hok). unfold pending in *. rewrite !(fun b => count_same w w1 b id (Hs b)) in IH. exact IH.
Qed.
End Count.
