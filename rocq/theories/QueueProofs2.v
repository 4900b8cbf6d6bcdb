(** The queue of requests: the links follow the two queues. *)
From Verif Require Import Base Locator Properties_Locator Number NumberProofs ChunkId ChunkIdProofs Posix PosixProofs ChunkFile Cache CacheProofs1 CacheProofs3 StoreSpec StoreProofs1 StoreProofs4 Queue QueueSpec QueueProofs1.
Local Open Scope N_scope.

Definition q_start (hi : bool) (q : queue) : N := if hi then start_high q else start_low q.
Definition q_end (hi : bool) (q : queue) : N := if hi then end_high q else end_low q.
Definition waiting (hi : bool) (s : fifo) : list (list N) := if hi then waiting_high s else waiting_low s.

Definition table := bool -> list (option (list N)).
Definition added (T : table) (hi : bool) (id : list N) : table := fun b => if Bool.eqb b hi then T b ++ [Some id] else T b.
Definition cleared (T : table) (id : list N) : table := fun b => clear id (T b).

Section Inv.
Context (root : list N).
Notation slot := (slot root). Notation mark := (mark root). Notation folder := (folder root).

Record inv (w : Posix.world) (q : queue) (s : fifo) (T : table) : Prop := {
  i_path : q_path q = root;
  i_root : name_at w root = None \/ name_at w root = Some NDir;
  i_open : q_open q = false -> forall hi, T hi = [];
  i_end : forall hi, q_end hi q = len (T hi);
  i_start : forall hi, q_start hi q <= len (T hi);
  i_dirs : forall d, In d [s_chunks; s_high; s_low] -> name_at w (folder d) = None \/ name_at w (folder d) = Some NDir;
  i_have : forall hi, T hi <> [] -> name_at w (folder s_chunks) = Some NDir /\ name_at w (folder (queue_name hi)) = Some NDir;
  i_slot : forall hi n, name_at w (slot hi n) = match nth_error (T hi) (N.to_nat n) with Some (Some id) => Some (NLink (chunk_id_format id)) | _ => None end;
  i_mark : forall id hi n, nth_error (T hi) (N.to_nat n) = Some (Some id) -> name_at w (mark id) = Some (NLink (queue_pos hi n));
  i_free : forall id, id_ok id = true -> (forall hi, ~ In (Some id) (T hi)) -> name_at w (mark id) = None;
  i_ok : forall id hi, In (Some id) (T hi) -> id_ok id = true;
  i_wait : forall hi, waiting hi s = somes (dropN (q_start hi q) (T hi));
  i_known : forall id hi, assoc (known s) id = Some hi <-> In (Some id) (T hi);
  i_chunk : forall p, chunk_name root p -> name_at w p <> Some NDir
}.

Lemma inv_once w q s T id hi n hi' n' : inv w q s T -> nth_error (T hi) (N.to_nat n) = Some (Some id) -> nth_error (T hi') (N.to_nat n') = Some (Some id) -> hi = hi' /\ n = n'.
Proof.
  intros I H H'. apply (i_mark _ _ _ _ I) in H, H'. rewrite H in H'. injection H' as E. unfold queue_pos in E.
  apply (slot_inj root). unfold slot, in_cache, queue_pos. rewrite E. reflexivity.
Qed.

(** Worlds that agree on the names of the queue. *)
Lemma inv_names w w' q s T : (forall p, of_queue root p -> name_at w' p = name_at w p) -> (forall p, chunk_name root p -> name_at w' p <> Some NDir) -> inv w q s T -> inv w' q s T.
Proof.
  intros Hn Hc I. destruct I. constructor; try assumption.
  - rewrite (Hn root (of_root root)). assumption.
  - intros d Hd. rewrite (Hn _ (of_dir root d Hd)). auto.
  - intros hi HT. rewrite (Hn (folder s_chunks)) by (apply of_dir; cbn; auto). rewrite (Hn (folder (queue_name hi))) by (apply of_dir; apply level_in). auto.
  - intros hi n. rewrite (Hn _ (of_slot root hi n)). auto.
  - intros id hi n H. rewrite (Hn _ (of_mark root id)). eauto.
  - intros id H1 H2. rewrite (Hn _ (of_mark root id)). auto.
Qed.

Lemma inv_elsewhere w w' q s T : elsewhere root w w' -> inv w q s T -> inv w' q s T.
Proof. intros [Hn Hc] I. apply (inv_names w); [exact Hn| |exact I]. intros p Hp. apply Hc; [exact Hp|]. exact (i_chunk _ _ _ _ I p Hp). Qed.

Lemma inv_mkdir w d q s T w' r : In d [s_chunks; s_high; s_low] -> inv w q s T -> sys false w (SMkdir (folder d)) w' r ->
  inv w' q s T /\ name_at w' (folder d) = Some NDir /\ (forall d', name_at w (folder d') = Some NDir -> name_at w' (folder d') = Some NDir).
Proof.
  intros Hd I H. assert (no_slash d) as Hs by (cbn in Hd; destruct Hd as [<-|[<-|[<-|[]]]]; [apply chunks_no_slash|apply (level_no_slash true)|apply (level_no_slash false)]).
  destruct (sys_mkdir _ _ _ _ _ H) as [(F & _)|Hx]; [discriminate F|].
  destruct (i_dirs _ _ _ _ I d Hd) as [Hn|Hn]; inversion H; subst; try discriminate; try congruence.
  2: { split; [exact I|]. split; [exact Hn|auto]. }
  split; [|split; [apply name_put_same|]].
  - destruct I. constructor; try assumption.
    + rewrite name_put_other by (apply not_eq_sym, root_dir). assumption.
    + intros d' Hd'. rewrite name_put. destruct (beq (folder d) (folder d')); [right; reflexivity|auto].
    + intros hi HT. rewrite !name_put. destruct (i_have0 hi HT) as [A B]. split; [destruct (beq _ _); [reflexivity|exact A]|destruct (beq _ _); [reflexivity|exact B]].
    + intros hi n. rewrite name_put_other by (apply dir_slot; exact Hs). auto.
    + intros id hi n HH. rewrite name_put_other by (apply dir_mark; exact Hs). eauto.
    + intros id Hi2 Hi3. rewrite name_put_other by (apply dir_mark; exact Hs). auto.
    + intros p Hp. rewrite name_put_other; [auto|]. intros <-. exact (queue_not_chunk root _ (of_dir root d Hd) Hp).
  - intros d' Hd'. rewrite name_put. destruct (beq _ _); [reflexivity|exact Hd'].
Qed.

Lemma opened_same q : q_open q = true -> opened q = q.
Proof. destruct q; cbn. intros ->. reflexivity. Qed.

Lemma init_ends w q s T (Q : Posix.world -> queue * res unit -> Prop) : inv w q s T ->
  (forall w', inv w' (opened q) s T -> Q w' (opened q, Ok tt)) -> ends false w (init_cache q) Q.
Proof.
  intros I HQ. unfold init_cache. destruct (q_open q) eqn:Ho; [rewrite (opened_same q Ho) in HQ; cbn [ends]; apply HQ; exact I|].
  assert (forall w', inv w' q s T -> inv w' (opened q) s T) as Hop.
  { intros w' J. destruct J. constructor; try assumption. intros E. discriminate E. }
  rewrite (i_path _ _ _ _ I). cbn [ends]. split; [destruct (i_root _ _ _ _ I) as [Hn|Hn]; eauto using sys|]. intros w1 r1 H1.
  assert (inv w1 q s T /\ name_at w1 root = Some NDir) as [I1 D1].
  { destruct (i_root _ _ _ _ I) as [Hn|Hn]; inversion H1; subst; try discriminate; try congruence; [|split; [exact I|exact Hn]].
    split; [|apply name_put_same]. destruct I. constructor; try assumption.
    - right. apply name_put_same.
    - intros d Hd. rewrite name_put_other by apply root_dir. auto.
    - intros hi HT. rewrite !name_put_other by apply root_dir. auto.
    - intros hi n. rewrite name_put_other by apply root_slot. auto.
    - intros id hi n HH. rewrite name_put_other by apply root_mark. eauto.
    - intros id Hi2 Hi3. rewrite name_put_other by apply root_mark. auto.
    - intros p Hp. rewrite name_put_other; [auto|]. intros E. apply (queue_not_chunk root p); [left; symmetry; exact E|exact Hp]. }
  split; [eauto using sys|]. intros w2 r2 H2. inversion H2; subst; try discriminate; try congruence. apply HQ. apply Hop. exact I1.
Qed.

(** ** Joining a queue *)
Lemma nth_added T hi id b n : nth_error (added T hi id b) (N.to_nat n) =
  if Bool.eqb b hi && (n =? len (T b)) then Some (Some id) else nth_error (T b) (N.to_nat n).
Proof.
  unfold added. destruct (Bool.eqb b hi); cbn [andb]; [|reflexivity]. unfold len. destruct (N.eqb_spec n (N.of_nat (length (T b)))) as [->|Hn].
  - rewrite Nat2N.id, nth_error_app2 by lia. rewrite Nat.sub_diag. reflexivity.
  - destruct (Nat.ltb_spec (N.to_nat n) (length (T b))) as [Hl|Hl]; [apply nth_error_app1; exact Hl|].
    rewrite (proj2 (nth_error_None (T b) _)) by lia. apply nth_error_None. rewrite app_length. cbn. lia.
Qed.
Lemma in_added T hi id b x : In (Some x) (added T hi id b) <-> In (Some x) (T b) \/ (b = hi /\ x = id).
Proof.
  unfold added. destruct (Bool.eqb b hi) eqn:E; [apply Bool.eqb_prop in E; subst b; rewrite in_app_iff; cbn [In]|apply Bool.eqb_false_iff in E].
  - split; [intros [H|[H|[]]]; [auto|right; split; congruence]|intros [H|[_ ->]]; auto].
  - split; [auto|intros [H|[H _]]; [exact H|contradiction]].
Qed.
Lemma eqb_sym' (a b : bool) : Bool.eqb a b = Bool.eqb b a. Proof. destruct a, b; reflexivity. Qed.
Lemma end_next_end b hi q : q_end hi q + 1 < two64 -> q_end b (end_next hi q) = if Bool.eqb b hi then q_end b q + 1 else q_end b q.
Proof.
  intros H. destruct q, b, hi; cbn in *; try reflexivity; apply N.mod_small; exact H.
Qed.
Lemma end_next_start b hi q : q_start b (end_next hi q) = q_start b q.
Proof. destruct b, hi; reflexivity. Qed.
Lemma join_wait b s id hi : waiting b (join s id hi) = if Bool.eqb b hi then waiting b s ++ [id] else waiting b s.
Proof. destruct b, hi; reflexivity. Qed.
Lemma join_known s id hi x : assoc (known (join s id hi)) x = if beq id x then Some hi else assoc (known s) x.
Proof. destruct hi; reflexivity. Qed.

Lemma inv_add w q s T hi id : inv w q s T -> q_open q = true -> id_ok id = true -> (forall b, ~ In (Some id) (T b)) -> q_end hi q + 1 < two64 ->
  name_at w (folder s_chunks) = Some NDir -> name_at w (folder (queue_name hi)) = Some NDir ->
  inv (put_name (put_name w (mark id) (NLink (queue_pos hi (q_end hi q)))) (slot hi (q_end hi q)) (NLink (chunk_id_format id)))
    (end_next hi q) (join s id hi) (added T hi id).
Proof.
  intros I Hop Hid Hno Hmax Hc Hl. set (n := q_end hi q) in *. set (w' := put_name _ _ _).
  assert (forall p, p <> mark id -> p <> slot hi n -> name_at w' p = name_at w p) as Hw.
  { intros p H1 H2. unfold w'. rewrite name_put_other by (apply not_eq_sym; exact H2). apply name_put_other. apply not_eq_sym. exact H1. }
  assert (name_at w' (mark id) = Some (NLink (queue_pos hi n))) as Hm.
  { unfold w'. rewrite name_put_other by apply slot_mark. apply name_put_same. }
  assert (name_at w' (slot hi n) = Some (NLink (chunk_id_format id))) as Hs by apply name_put_same.
  assert (forall d, no_slash d -> name_at w' (folder d) = name_at w (folder d)) as Hf by (intros d Hd; apply Hw; [apply dir_mark; exact Hd|apply dir_slot; exact Hd]).
  pose proof (i_end _ _ _ _ I hi) as He. fold n in He.
  destruct I. constructor.
  - destruct hi; assumption.
  - rewrite Hw; [assumption|apply root_mark|apply root_slot].
  - intros E. destruct hi; cbn in E; congruence.
  - intros b. rewrite end_next_end by exact Hmax. rewrite i_end0. unfold added. destruct (Bool.eqb b hi); [rewrite len_app; reflexivity|reflexivity].
  - intros b. rewrite end_next_start. specialize (i_start0 b). unfold added. destruct (Bool.eqb b hi); [rewrite len_app|]; lia.
  - intros d Hd. assert (no_slash d) as Hsl by (cbn in Hd; destruct Hd as [<-|[<-|[<-|[]]]]; [apply chunks_no_slash|apply (level_no_slash true)|apply (level_no_slash false)]).
    rewrite Hf by exact Hsl. auto.
  - intros b HT. rewrite !Hf by (apply chunks_no_slash || apply level_no_slash). split; [exact Hc|]. unfold added in HT. destruct (Bool.eqb b hi) eqn:E.
    + apply Bool.eqb_prop in E. subst b. exact Hl.
    + apply i_have0. exact HT.
  - intros b k. rewrite nth_added. destruct (Bool.eqb b hi) eqn:E; cbn [andb].
    + apply Bool.eqb_prop in E. subst b. rewrite <- He. destruct (N.eqb_spec k n) as [->|Hk]; [exact Hs|].
      rewrite Hw; [apply i_slot0|apply slot_mark|]. intros E. apply slot_inj in E. destruct E as [_ E]. contradiction.
    + rewrite Hw; [apply i_slot0|apply slot_mark|]. intros E'. apply slot_inj in E'. destruct E' as [E' _]. subst b. rewrite Bool.eqb_reflx in E. discriminate.
  - intros x b k HH. rewrite nth_added in HH. destruct (Bool.eqb b hi && (k =? len (T b))) eqn:E.
    + apply andb_prop in E. destruct E as [E1 E2]. apply Bool.eqb_prop in E1. apply N.eqb_eq in E2. subst b. injection HH as <-. rewrite Hm. rewrite E2, He. reflexivity.
    + rewrite Hw; [eauto| |apply not_eq_sym; apply slot_mark]. intros EE. apply nth_error_In in HH. apply mark_inj in EE; [|eauto|exact Hid]. subst x. exact (Hno _ HH).
  - intros x Hx Hnx. assert (x <> id) as Hd by (intros ->; apply (Hnx hi); apply in_added; auto).
    rewrite Hw; [|intros EE; apply mark_inj in EE; auto|apply not_eq_sym; apply slot_mark]. apply i_free0; [exact Hx|]. intros b Hb. apply (Hnx b). apply in_added. auto.
  - intros x b HH. apply in_added in HH. destruct HH as [HH|[_ ->]]; [eauto|exact Hid].
  - intros b. rewrite join_wait, end_next_start, i_wait0. unfold added. specialize (i_start0 b). destruct (Bool.eqb b hi); [|reflexivity].
    rewrite dropN_app_le by exact i_start0. rewrite somes_app. reflexivity.
  - intros x b. rewrite join_known, in_added. specialize (i_known0 x b). destruct (beq id x) eqn:E.
    + apply beq_eq in E. subst x. split; [intros HH; right; split; [congruence|reflexivity]|]. intros [HH|[-> _]]; [exfalso; exact (Hno _ HH)|reflexivity].
    + apply beq_neq in E. rewrite i_known0. split; [auto|]. intros [HH|[_ HH]]; [exact HH|congruence].
  - intros p Hp. rewrite Hw; [auto| |]; intros ->; eapply queue_not_chunk; try exact Hp; [apply of_mark|apply of_slot].
Qed.

Lemma add_ends w q s T hi id : inv w q s T -> q_open q = true -> id_ok id = true -> (forall b, ~ In (Some id) (T b)) -> q_end hi q + 1 < two64 ->
  ends false w (add_request q id hi) (fun w' r => r = (end_next hi q, Ok true) /\ inv w' (end_next hi q) (join s id hi) (added T hi id)).
Proof.
  intros I Hop Hid Hno Hmax. unfold add_request.
  change (if hi then end_high q else end_low q) with (q_end hi q). set (n := q_end hi q).
  assert (forall w, inv w q s T -> name_at w (folder s_chunks) = Some NDir -> name_at w (folder (queue_name hi)) = Some NDir ->
    ends false w (Sys (SSymlink (queue_pos hi n) (chunk_link q id)) (fun r =>
      match r with
      | RNum _ =>
        Sys (SSymlink (chunk_id_format id) (in_cache (q_path q) (queue_pos hi n))) (fun r =>
          match r with
          | RNum _ => Ret (end_next hi q, Ok true)
          | RFail e => Ret (q, Err e)
          | _ => Ret (q, UB)
          end)
      | RFail e => Ret (q, Err e)
      | _ => Ret (q, UB)
      end)) (fun w' r => r = (end_next hi q, Ok true) /\ inv w' (end_next hi q) (join s id hi) (added T hi id))) as Hlinks.
  { clear w I. intros w I Hc Hl. unfold chunk_link. rewrite (i_path _ _ _ _ I).
    change (in_cache root (s_chunks ++ 47 :: chunk_id_format id)) with (mark id). change (in_cache root (queue_pos hi n)) with (slot hi n).
    pose proof (i_free _ _ _ _ I id Hid Hno) as Hm.
    assert (name_at w (slot hi n) = None) as Hs.
    { rewrite (i_slot _ _ _ _ I). rewrite (proj2 (nth_error_None (T hi) _)); [reflexivity|]. pose proof (i_end _ _ _ _ I hi) as He. fold n in He. unfold len in He. lia. }
    cbn [ends]. split; [eexists; eexists; apply s_symlink; [exact Hm|rewrite dirname_mark; exact Hc]|].
    intros w1 r1 H1. destruct (sys_symlink _ _ _ _ _ _ H1) as [(F & _)|Hx]; [discriminate F|].
    inversion H1; subst; try discriminate; try congruence; [|rewrite dirname_mark in *; congruence]. cbn [ends].
    assert (name_at (put_name w (mark id) (NLink (queue_pos hi n))) (slot hi n) = None) as Hs' by (rewrite name_put_other by (apply not_eq_sym, slot_mark); exact Hs).
    assert (name_at (put_name w (mark id) (NLink (queue_pos hi n))) (dirname (slot hi n)) = Some NDir) as Hl'.
    { rewrite dirname_slot. rewrite name_put_other by (apply not_eq_sym, dir_mark, level_no_slash). exact Hl. }
    split; [eexists; eexists; apply s_symlink; [exact Hs'|exact Hl']|].
    intros w2 r2 H2. inversion H2; subst; try discriminate; try congruence. cbn [ends]. split; [reflexivity|].
    apply inv_add; assumption. }
  destruct (N.eqb_spec n 0) as [Hz|Hz].
  - cbn [ends]. rewrite (i_path _ _ _ _ I). change (in_cache root s_chunks) with (folder s_chunks). change (in_cache root (queue_name hi)) with (folder (queue_name hi)).
    assert (In s_chunks [s_chunks; s_high; s_low]) as Hin by (cbn; auto).
    split; [destruct (i_dirs _ _ _ _ I s_chunks Hin); eauto using sys|]. intros w1 r1 H1. destruct (inv_mkdir _ _ _ _ _ _ _ Hin I H1) as (I1 & D1 & _).
    split; [destruct (i_dirs _ _ _ _ I1 (queue_name hi) (level_in hi)); eauto using sys|]. intros w2 r2 H2. destruct (inv_mkdir _ _ _ _ _ _ _ (level_in hi) I1 H2) as (I2 & D2 & K2).
    pose proof (Hlinks w2 I2 (K2 _ D1) D2) as HH. rewrite (i_path _ _ _ _ I2) in HH. exact HH.
  - assert (T hi <> []) as HT. { intros E. pose proof (i_end _ _ _ _ I hi) as He. fold n in He. rewrite E in He. exact (Hz He). }
    destruct (i_have _ _ _ _ I hi HT) as [Hc Hl]. apply Hlinks; assumption.
Qed.

(** ** Leaving the queues *)
Lemma leave_wait b s id : waiting b (leave s id) = without id (waiting b s). Proof. destruct b; reflexivity. Qed.
Lemma assoc_forgotten id x : forall l, assoc (forgotten id l) x = if beq x id then None else assoc l x.
Proof.
  induction l as [|[y b] l IH]; cbn [forgotten filter assoc fst]; [destruct (beq x id); reflexivity|]. destruct (beq y id) eqn:E; cbn [negb].
  - change (filter _ l) with (forgotten id l). rewrite IH. apply beq_eq in E. subst y. destruct (beq x id) eqn:E2; [reflexivity|].
    destruct (beq id x) eqn:E3; [apply beq_eq in E3; subst; rewrite beq_refl in E2; discriminate|reflexivity].
  - cbn [assoc]. change (filter _ l) with (forgotten id l). rewrite IH. destruct (beq y x) eqn:E3; [|reflexivity].
    apply beq_eq in E3. subst y. rewrite E. reflexivity.
Qed.

Lemma inv_leave w q s T hi n id : inv w q s T -> nth_error (T hi) (N.to_nat n) = Some (Some id) ->
  inv (del_name (del_name w (mark id)) (slot hi n)) q (leave s id) (cleared T id).
Proof.
  intros I Hn. pose proof (fun h' n' => inv_once _ _ _ _ id hi n h' n' I Hn) as Honce. set (w' := del_name _ _).
  assert (id_ok id = true) as Hid by (eapply (i_ok _ _ _ _ I); apply nth_error_In in Hn; exact Hn).
  assert (forall p, p <> mark id -> p <> slot hi n -> name_at w' p = name_at w p) as Hw.
  { intros p H1 H2. unfold w'. rewrite name_del_other by (apply not_eq_sym; exact H2). apply name_del_other. apply not_eq_sym. exact H1. }
  assert (forall p, name_at w' p = None \/ name_at w' p = name_at w p) as Hw'.
  { intros p. unfold w'. rewrite !name_del. destruct (beq (slot hi n) p); [auto|]. destruct (beq (mark id) p); auto. }
  assert (forall d, no_slash d -> name_at w' (folder d) = name_at w (folder d)) as Hf by (intros d Hd; apply Hw; [apply dir_mark; exact Hd|apply dir_slot; exact Hd]).
  assert (Hdir : forall d, In d [s_chunks; s_high; s_low] -> no_slash d).
  { intros d Hd. cbn in Hd; destruct Hd as [<-|[<-|[<-|[]]]]; [apply chunks_no_slash|apply (level_no_slash true)|apply (level_no_slash false)]. }
  pose proof I as I0. destruct I. constructor; try assumption.
  - rewrite Hw; [assumption|apply root_mark|apply root_slot].
  - intros E b. unfold cleared. rewrite (i_open0 E b). reflexivity.
  - intros b. unfold cleared. rewrite len_clear. auto.
  - intros b. unfold cleared. rewrite len_clear. auto.
  - intros d Hd. rewrite Hf by auto. auto.
  - intros b HT. rewrite !Hf by (apply chunks_no_slash || apply level_no_slash). apply i_have0. intros E. apply HT. unfold cleared. rewrite E. reflexivity.
  - intros b k. unfold cleared. rewrite nth_clear. destruct (nth_error (T b) (N.to_nat k)) as [o|] eqn:E.
    + destruct o as [x|]; cbn [holds_id].
      * destruct (beq x id) eqn:B.
        -- apply beq_eq in B. subst x. destruct (Honce _ _ E) as [-> ->]. unfold w'. rewrite name_del, beq_refl. reflexivity.
        -- rewrite Hw; [rewrite i_slot0, E; reflexivity|apply slot_mark|]. intros EE. apply slot_inj in EE. destruct EE as [-> ->]. rewrite Hn in E. injection E as ->. rewrite beq_refl in B. discriminate.
      * rewrite Hw; [rewrite i_slot0, E; reflexivity|apply slot_mark|]. intros EE. apply slot_inj in EE. destruct EE as [-> ->]. congruence.
    + rewrite Hw; [rewrite i_slot0, E; reflexivity|apply slot_mark|]. intros EE. apply slot_inj in EE. destruct EE as [-> ->]. congruence.
  - intros x b k HH. unfold cleared in HH. rewrite nth_clear in HH. destruct (nth_error (T b) (N.to_nat k)) as [[y|]|] eqn:E; cbn [holds_id] in HH; [|discriminate HH|discriminate HH].
    destruct (beq y id) eqn:B; [discriminate HH|]. injection HH as ->. apply beq_neq in B.
    rewrite Hw; [eauto| |apply not_eq_sym, slot_mark]. intros EE. apply B. apply (mark_inj root); [|exact Hid|exact EE]. apply nth_error_In in E. eauto.
  - intros x Hx Hnx. destruct (beq x id) eqn:B.
    + apply beq_eq in B. subst x. unfold w'. rewrite !name_del. rewrite beq_refl. destruct (beq _ _); reflexivity.
    + apply beq_neq in B. rewrite Hw; [|intros EE; apply mark_inj in EE; auto|apply not_eq_sym, slot_mark]. apply i_free0; [exact Hx|]. intros b Hb. apply (Hnx b). apply in_clear. auto.
  - intros x b HH. apply in_clear in HH. destruct HH. eauto.
  - intros b. rewrite leave_wait, i_wait0. unfold cleared. rewrite dropN_clear, somes_clear. reflexivity.
  - intros x b. cbn [leave known]. rewrite assoc_forgotten. unfold cleared. rewrite in_clear. specialize (i_known0 x b). destruct (beq x id) eqn:B.
    + apply beq_eq in B. subst x. split; [discriminate|]. intros [_ HH]. contradiction.
    + apply beq_neq in B. rewrite i_known0. split; [auto|]. intros [HH _]. exact HH.
  - intros p Hp. destruct (Hw' p) as [->| ->]; [discriminate|auto].
Qed.
End Inv.
