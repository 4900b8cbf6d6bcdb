(** The queue of requests: the operations do what the two queues do. *)
From Verif Require Import Base Locator Properties_Locator Number NumberProofs ChunkId ChunkIdProofs Posix PosixProofs ChunkFile Cache CacheProofs1 CacheProofs3 StoreSpec StoreProofs1 StoreProofs4 Queue QueueSpec QueueProofs1 QueueProofs2.
Local Open Scope N_scope.

Lemma level_pos b n hi : startswith (queue_pos b n) (queue_name hi ++ [47]) = if Bool.eqb b hi then Some (dec n) else None.
Proof.
  destruct b, hi; reflexivity.
Qed.
Lemma queue_pos_len b n : n < two64 -> len (queue_pos b n) <= 79.
Proof.
  intros H. pose proof (dec_len n H). unfold queue_pos. rewrite len_app, len_cons. assert (len (queue_name b) <= 13) by (destruct b; vm_compute; discriminate). lia.
Qed.
Lemma nth_pos {A} (l : list A) x : In x l -> exists n : N, n < len l /\ nth_error l (N.to_nat n) = Some x.
Proof.
  intros H. apply In_nth_error in H. destruct H as [n Hn]. exists (N.of_nat n). rewrite Nat2N.id. split; [|exact Hn].
  assert (n < length l)%nat by (apply nth_error_Some; rewrite Hn; discriminate). unfold len. lia.
Qed.
Lemma nth_lt {A} (l : list A) n x : nth_error l (N.to_nat n) = Some x -> n < len l.
Proof. intros H. assert (N.to_nat n < length l)%nat by (apply nth_error_Some; rewrite H; discriminate). unfold len. lia. Qed.
Lemma nth_dropN {A} (l : list A) a n : nth_error (dropN a l) n = nth_error l (N.to_nat a + n).
Proof. unfold dropN. generalize (N.to_nat a). clear a. intros a. revert l. induction a as [|a IH]; intros [|x l]; try reflexivity; [destruct n; reflexivity|]. apply IH. Qed.
Lemma dropN_at {A} (l : list A) a : a < len l -> exists x, nth_error l (N.to_nat a) = Some x /\ dropN a l = x :: dropN (a + 1) l.
Proof.
  unfold len, dropN. intros H. replace (N.to_nat (a + 1)) with (S (N.to_nat a)) by lia.
  assert (N.to_nat a < length l)%nat as Hl by lia. clear H. generalize dependent (N.to_nat a). clear a. intros a. revert l. induction a as [|a IH]; intros [|x l] Hl; cbn in *; try lia.
  - exists x. auto.
  - apply IH. lia.
Qed.

Section Ops.
Context (root : list N).
Notation slot := (slot root). Notation mark := (mark root). Notation folder := (folder root). Notation inv := (inv root).

Definition bounded (q : queue) (k : N) : Prop := forall b, q_end b q <= k.

Lemma known_cases w q s T id : inv w q s T -> id_ok id = true ->
  (assoc (known s) id = None /\ (forall b, ~ In (Some id) (T b)) /\ name_at w (mark id) = None) \/
  exists b n, assoc (known s) id = Some b /\ n < q_end b q /\ nth_error (T b) (N.to_nat n) = Some (Some id) /\ name_at w (mark id) = Some (NLink (queue_pos b n)) /\
    name_at w (slot b n) = Some (NLink (chunk_id_format id)).
Proof.
  intros I Hid. destruct (assoc (known s) id) as [b|] eqn:E.
  - right. pose proof E as E'. apply (i_known _ _ _ _ _ I) in E. apply nth_pos in E. destruct E as (n & Hn & Hnth). exists b, n. split; [reflexivity|].
    rewrite (i_end _ _ _ _ _ I). split; [exact Hn|]. split; [exact Hnth|]. split; [apply (i_mark _ _ _ _ _ I); exact Hnth|]. rewrite (i_slot _ _ _ _ _ I), Hnth. reflexivity.
  - left. assert (forall b, ~ In (Some id) (T b)) as Hno. { intros b Hb. apply (i_known _ _ _ _ _ I) in Hb. congruence. }
    split; [reflexivity|]. split; [exact Hno|]. apply (i_free _ _ _ _ _ I); assumption.
Qed.

Lemma waits_iff w q s T id b n : inv w q s T -> nth_error (T b) (N.to_nat n) = Some (Some id) -> existsb (beq id) (waiting b s) = negb (n <? q_start b q).
Proof.
  intros I Hn. apply Bool.eq_true_iff_eq. rewrite existsb_exists. split.
  - intros (x & Hx & E). apply beq_eq in E. subst x. rewrite (i_wait _ _ _ _ _ I) in Hx. apply in_somes in Hx. apply In_nth_error in Hx. destruct Hx as [k Hk].
    rewrite nth_dropN in Hk. replace (N.to_nat (q_start b q) + k)%nat with (N.to_nat (q_start b q + N.of_nat k)) in Hk by lia.
    destruct (inv_once _ _ _ _ _ _ _ _ _ _ I Hn Hk) as [_ ->]. destruct (N.ltb_spec (q_start b q + N.of_nat k) (q_start b q)); [lia|reflexivity].
  - intros Hge. exists id. split; [|apply beq_refl]. rewrite (i_wait _ _ _ _ _ I). apply in_somes. apply nth_error_In with (N.to_nat (n - q_start b q)).
    rewrite nth_dropN. destruct (N.ltb_spec n (q_start b q)); [discriminate Hge|]. replace (N.to_nat (q_start b q) + N.to_nat (n - q_start b q))%nat with (N.to_nat n) by lia. exact Hn.
Qed.

Lemma enqueue_open_ends fuel w q s T id hi again : (1 <= fuel)%nat -> inv w q s T -> q_open q = true -> id_ok id = true -> (forall b, q_end b q + 1 < two64) ->
  ends false w (enqueue_open fuel q id hi again) (fun w' r => snd r = Ok (snd (ask s id hi again)) /\ q_open (fst r) = true /\
    (forall b, q_end b (fst r) <= q_end b q + 1) /\ exists T', inv w' (fst r) (fst (ask s id hi again)) T').
Proof.
  intros Hfuel I Hop Hid Hmax. unfold enqueue_open. unfold chunk_link. rewrite (i_path _ _ _ _ _ I).
  change (in_cache root (s_chunks ++ 47 :: chunk_id_format id)) with (mark id).
  assert (Hend : forall w q s T, inv w q s T -> q_open q = true -> (forall b, ~ In (Some id) (T b)) -> (forall b, q_end b q + 1 < two64) ->
    ends false w (add_request q id hi) (fun w' r => snd r = Ok true /\ q_open (fst r) = true /\ (forall b, q_end b (fst r) <= q_end b q + 1) /\ exists T', inv w' (fst r) (join s id hi) T')).
  { clear - Hid. intros w q s T I Hop Hno Hmax. eapply ends_mono; [|apply (add_ends root w q s T hi id); auto]. cbv beta. intros w' r [-> J]. cbn [fst snd].
    split; [reflexivity|]. split; [destruct hi; exact Hop|]. split; [|exists (added T hi id); exact J]. intros b. rewrite end_next_end by auto. destruct (Bool.eqb b hi); lia. }
  apply ends_bind. destruct (known_cases w q s T id I Hid) as [(E & Hno & Hm)|(b & n & E & Hn & Hnth & Hm & Hs)].
  - apply readlink_malloc_none; [exact Hm| |exact Hfuel]. unfold ask. rewrite E. cbn [fst snd]. apply (Hend w q s T); assumption.
  - assert (n < two64) as Hn64 by (specialize (Hmax b); lia).
    apply (readlink_malloc_link _ (queue_pos b n)); [exact Hm| |exact Hfuel|lia|pose proof (queue_pos_len b n Hn64); lia].
    assert (Hsame : ends false w (Ret (q, Ok false)) (fun w' r => snd r = Ok false /\ q_open (fst r) = true /\ (forall b, q_end b (fst r) <= q_end b q + 1) /\ exists T', inv w' (fst r) s T')).
    { cbn. split; [reflexivity|]. split; [exact Hop|]. split; [intros; lia|]. exists T. exact I. }
    rewrite level_pos. unfold ask. rewrite E. destruct b.
    + cbn [fst snd]. destruct hi; exact Hsame.
    + destruct hi; [|exact Hsame]. cbn [Bool.eqb negb andb]. change (s_low ++ [47]) with (queue_name false ++ [47]). rewrite level_pos. cbn [Bool.eqb].
      rewrite safe_atou64_dec by (change UINT64_MAX with (two64 - 1); lia).
      pose proof (waits_iff w q s T id false n I Hnth) as Hw. cbn [waiting q_start] in Hw. rewrite Hw.
      destruct ((n <? start_low q) && negb again) eqn:EC.
      * replace (again || negb (n <? start_low q)) with false by (destruct again, (n <? start_low q); try discriminate EC; reflexivity). exact Hsame.
      * replace (again || negb (n <? start_low q)) with true by (destruct again, (n <? start_low q); try discriminate EC; reflexivity). cbn [fst snd].
        change (in_cache root (queue_pos false n)) with (slot false n).
        cbn [ends]. split; [eexists; eexists; eapply s_unlink; [exact Hm|discriminate]|]. intros w1 r1 H1. inversion H1; subst; try discriminate; try congruence. cbn [ends].
        assert (name_at (del_name w (mark id)) (slot false n) = Some (NLink (chunk_id_format id))) as Hs' by (rewrite name_del_other by (apply not_eq_sym, slot_mark); exact Hs).
        split; [eexists; eexists; eapply s_unlink; [exact Hs'|discriminate]|]. intros w2 r2 H2. inversion H2; subst; try discriminate; try congruence.
        apply (Hend _ q (leave s id) (cleared T id)); [apply inv_leave; assumption|exact Hop| |exact Hmax]. intros b Hb. apply in_clear in Hb. destruct Hb. auto.
Qed.

Lemma enqueue_ends fuel w q s T id hi again : (1 <= fuel)%nat -> inv w q s T -> id_ok id = true -> (forall b, q_end b q + 1 < two64) ->
  ends false w (enqueue_request fuel q id hi again) (fun w' r => snd r = Ok (snd (ask s id hi again)) /\ q_open (fst r) = true /\
    (forall b, q_end b (fst r) <= q_end b q + 1) /\ exists T', inv w' (fst r) (fst (ask s id hi again)) T').
Proof.
  intros Hfuel I Hid Hmax. unfold enqueue_request. apply ends_bind. apply (init_ends root w q s T); [exact I|]. intros w1 I1.
  apply (enqueue_open_ends fuel w1 (opened q) s T); try assumption. reflexivity.
Qed.

(** ** Taking the next request *)
Lemma start_next_start b hi q : q_start hi q + 1 < two64 -> q_start b (start_next hi q) = if Bool.eqb b hi then q_start b q + 1 else q_start b q.
Proof. intros H. destruct q, b, hi; cbn in *; try reflexivity; apply N.mod_small; exact H. Qed.
Lemma start_next_end b hi q : q_end b (start_next hi q) = q_end b q.
Proof. destruct b, hi; reflexivity. Qed.

Definition popped (hi : bool) (s : fifo) : fifo :=
  if hi then mkFifo (tl (waiting_high s)) (waiting_low s) (known s) else mkFifo (waiting_high s) (tl (waiting_low s)) (known s).
Lemma popped_wait b hi s : waiting b (popped hi s) = if Bool.eqb b hi then tl (waiting b s) else waiting b s.
Proof. destruct b, hi; reflexivity. Qed.
Lemma popped_known hi s : known (popped hi s) = known s. Proof. destruct hi; reflexivity. Qed.

Lemma inv_next w q s T hi o : inv w q s T -> q_start hi q < q_end hi q -> q_end hi q + 1 < two64 -> nth_error (T hi) (N.to_nat (q_start hi q)) = Some o ->
  inv w (start_next hi q) (match o with Some _ => popped hi s | None => s end) T /\
  (forall id, o = Some id -> waiting hi s = id :: tl (waiting hi s)).
Proof.
  intros I Hlt Hmax Hnth. assert (q_start hi q + 1 < two64) as H64 by lia.
  pose proof (i_end _ _ _ _ _ I hi) as Hend.
  assert (dropN (q_start hi q) (T hi) = o :: dropN (q_start hi q + 1) (T hi)) as Hd.
  { destruct (dropN_at (T hi) (q_start hi q)) as (x & Hx & Hd); [lia|]. rewrite Hnth in Hx. injection Hx as ->. exact Hd. }
  assert (waiting hi s = match o with Some id => id :: somes (dropN (q_start hi q + 1) (T hi)) | None => somes (dropN (q_start hi q + 1) (T hi)) end) as Hwait.
  { rewrite (i_wait _ _ _ _ _ I), Hd. destruct o; reflexivity. }
  split; [|intros id ->; rewrite Hwait; reflexivity].
  assert (Hk : known (match o with Some _ => popped hi s | None => s end) = known s) by (destruct o; [apply popped_known|reflexivity]).
  destruct I. constructor; try assumption.
  - destruct hi; assumption.
  - intros E. apply i_open. destruct hi; exact E.
  - intros b. rewrite start_next_end. auto.
  - intros b. rewrite start_next_start by exact H64. destruct (Bool.eqb b hi) eqn:E; [apply Bool.eqb_prop in E; subst b; lia|auto].
  - intros b. rewrite start_next_start by exact H64. destruct (Bool.eqb b hi) eqn:E.
    + apply Bool.eqb_prop in E. subst b. destruct o as [x|]; [rewrite popped_wait, Bool.eqb_reflx, Hwait; reflexivity|exact Hwait].
    + destruct o as [x|]; [rewrite popped_wait, E; auto|auto].
  - intros x b. rewrite Hk. auto.
Qed.

Lemma next_popped s hi only id rest : waiting hi s = id :: rest -> only <> Some (negb hi) -> (hi = false -> only = Some false \/ waiting_high s = []) ->
  next s only = (popped hi s, Some (id, hi)).
Proof.
  destruct s as [h l k]. unfold next, popped, waiting. destruct hi; cbn [waiting_high waiting_low known negb].
  - intros -> Ho _. destruct l; destruct only as [[|]|]; try reflexivity. all: exfalso; apply Ho; reflexivity.
  - intros -> Ho H. destruct (H eq_refl) as [->| ->]; [destruct h; reflexivity|]. destruct only as [[|]|]; try reflexivity. exfalso; apply Ho; reflexivity.
Qed.

Lemma pick_some q only hi n : pick q only = Some (hi, n) -> n = q_start hi q /\ q_start hi q < q_end hi q /\ only <> Some (negb hi) /\ (hi = false -> only = Some false \/ q_end true q <= q_start true q).
Proof.
  unfold pick. destruct (N.ltb_spec (start_high q) (end_high q)) as [H1|H1], (N.ltb_spec (start_low q) (end_low q)) as [H2|H2];
    destruct only as [[|]|]; cbn [andb negb]; intros E; try discriminate E; injection E as <- <-; (split; [reflexivity|]); (split; [assumption|]); (split; [discriminate|]);
    intros F; try discriminate F; auto.
Qed.
Lemma pick_none q only : pick q only = None -> (only <> Some false -> q_end true q <= q_start true q) /\ (only <> Some true -> q_end false q <= q_start false q).
Proof.
  unfold pick. destruct (N.ltb_spec (start_high q) (end_high q)) as [H1|H1], (N.ltb_spec (start_low q) (end_low q)) as [H2|H2];
    destruct only as [[|]|]; cbn [andb negb]; intros E; try discriminate E; split; intros F; try (exfalso; apply F; reflexivity); assumption.
Qed.
Lemma empty_wait w q s T hi : inv w q s T -> q_end hi q <= q_start hi q -> waiting hi s = [].
Proof. intros I H. rewrite (i_wait _ _ _ _ _ I). rewrite (i_end _ _ _ _ _ I) in H. rewrite dropN_all by exact H. reflexivity. Qed.

Lemma dequeue_loop_ends only : forall fuel w q s T, inv w q s T -> q_open q = true -> (forall b, q_end b q + 1 < two64) ->
  (q_end true q - q_start true q) + (q_end false q - q_start false q) < N.of_nat fuel ->
  ends false w (dequeue_loop fuel q only) (fun w' r => snd r = match snd (next s only) with Some x => Ok x | None => Err ENODATA end /\ q_open (fst r) = true /\
    (forall b, q_end b (fst r) = q_end b q) /\ exists T', inv w' (fst r) (fst (next s only)) T').
Proof.
  induction fuel as [|fuel IH]; intros w q s T I Hop Hmax Hf; [lia|]. cbn [dequeue_loop]. destruct (pick q only) as [[hi n]|] eqn:Ep.
  - apply pick_some in Ep. destruct Ep as (-> & Hlt & Hon & Hlow). apply ends_bind. rewrite (i_path _ _ _ _ _ I).
    change (in_cache root (queue_pos hi (q_start hi q))) with (slot hi (q_start hi q)).
    pose proof (i_slot _ _ _ _ _ I hi (q_start hi q)) as Hslot.
    destruct (nth_error (T hi) (N.to_nat (q_start hi q))) as [o|] eqn:Hnth.
    2: { exfalso. apply nth_error_None in Hnth. rewrite (i_end _ _ _ _ _ I) in Hlt. unfold len in Hlt. lia. }
    destruct (inv_next w q s T hi o I Hlt (Hmax hi) Hnth) as [I1 Hhead]. destruct o as [id|].
    + assert (id_ok id = true) as Hid by (apply (i_ok _ _ _ _ _ I id hi); apply nth_error_In in Hnth; exact Hnth).
      apply (readlink_malloc_link _ (chunk_id_format id)); [exact Hslot| |lia|lia|pose proof (id_ok_format id Hid) as Hl; unfold len; rewrite Hl; lia].
      rewrite (parse_format id Hid). cbn [ends fst snd].
      rewrite (next_popped s hi only id (tl (waiting hi s)) (Hhead id eq_refl) Hon).
      * cbn [fst snd]. split; [reflexivity|]. split; [destruct hi; exact Hop|]. split; [intros b; apply start_next_end|]. exists T. exact I1.
      * intros E. destruct (Hlow E) as [X|X]; [auto|right]. exact (empty_wait _ _ _ _ true I X).
    + apply readlink_malloc_none; [exact Hslot| |lia].
      assert (Hst : q_start hi q + 1 < two64) by (specialize (Hmax hi); lia).
      eapply ends_mono; [|apply (IH w (start_next hi q) s T); [exact I1|destruct hi; exact Hop|intros b; rewrite start_next_end; apply Hmax|]].
      * cbv beta. intros w' r (A & B & C & D). split; [exact A|]. split; [exact B|]. split; [|exact D]. intros b. rewrite C. apply start_next_end.
      * rewrite !start_next_end. rewrite !start_next_start by exact Hst. destruct hi; cbn [Bool.eqb]; lia.
  - apply pick_none in Ep. destruct Ep as [Eh El]. cbn [ends fst snd].
    assert (next s only = (s, None)) as ->.
    { destruct s as [h l k]. pose proof (fun x => empty_wait _ _ _ _ true I (Eh x)) as Wh. pose proof (fun x => empty_wait _ _ _ _ false I (El x)) as Wl. cbn [waiting waiting_high waiting_low] in *.
      unfold next. cbn [waiting_high waiting_low known]. destruct only as [[|]|].
      - rewrite (Wh ltac:(discriminate)). destruct l; reflexivity.
      - rewrite (Wl ltac:(discriminate)). destruct h; reflexivity.
      - rewrite (Wh ltac:(discriminate)), (Wl ltac:(discriminate)). reflexivity. }
    cbn [fst snd]. split; [reflexivity|]. split; [exact Hop|]. split; [reflexivity|]. exists T. exact I.
Qed.

Lemma dequeue_ends fuel w q s T only : inv w q s T -> (forall b, q_end b q + 1 < two64) -> q_end true q + q_end false q < N.of_nat fuel ->
  ends false w (dequeue_request fuel q only) (fun w' r => snd r = match snd (next s only) with Some x => Ok x | None => Err ENODATA end /\
    (forall b, q_end b (fst r) = q_end b q) /\ exists T', inv w' (fst r) (fst (next s only)) T').
Proof.
  intros I Hmax Hf. unfold dequeue_request. destruct (q_open q) eqn:Ho.
  - eapply ends_mono; [|apply (dequeue_loop_ends only fuel w q s T I Ho Hmax); lia]. cbv beta. intros w' r (A & _ & C & D). auto.
  - cbn [ends fst snd]. pose proof (i_open _ _ _ _ _ I Ho) as HT. pose proof (i_wait _ _ _ _ _ I) as Hw.
    assert (forall b, waiting b s = []) as Hz by (intros b; rewrite Hw, HT; unfold dropN; rewrite skipn_nil; reflexivity).
    pose proof (Hz true) as Zh. pose proof (Hz false) as Zl. cbn in Zh, Zl.
    assert (next s only = (s, None)) as ->. { unfold next. rewrite Zh, Zl. destruct only as [[|]|]; reflexivity. }
    cbn [fst snd]. split; [reflexivity|]. split; [reflexivity|]. exists T. exact I.
Qed.

(** ** Forgetting a chunk *)
Lemma queue_unlink_ends w id s : id_ok id = true -> (s = [] \/ s = cacnk) -> name_at w (chunk_id_format_path (root ++ [47]) id s) <> Some NDir ->
  ends false w (chunk_file_unlink (root ++ [47]) id s) (fun w' r => (r = Ok tt \/ r = Err ENOENT) /\
    (forall p, name_at w' p = None \/ name_at w' p = name_at w p) /\ (forall p, of_queue root p -> name_at w' p = name_at w p)).
Proof.
  intros Hid Hs Hnd. assert (no_slash s) as Hsl by (destruct Hs as [->| ->]; [intros []|apply cacnk_no_slash]). unfold chunk_file_unlink.
  rewrite dirname_path by exact Hsl. set (p0 := chunk_id_format_path (root ++ [47]) id s) in *.
  assert (Hq0 : forall p, of_queue root p -> p0 <> p). { intros p Hp <-. apply (queue_not_chunk root p0 Hp). exists id, s. auto. }
  assert (Hq1 : forall p, of_queue root p -> subdir (root ++ [47]) id <> p). { intros p Hp E. exact (queue_not_folder root p id Hid Hp (eq_sym E)). }
  cbn [ends]. destruct (name_at w p0) as [n|] eqn:En.
  - split; [eexists; eexists; eapply s_unlink; [exact En|congruence]|]. intros w1 r1 H1. inversion H1; subst; try discriminate; try congruence. cbn [ends].
    split; [destruct (name_at (del_name w p0) (subdir (root ++ [47]) id)) as [[| |]|] eqn:Ed;
      [destruct (existsb (in_dir (subdir (root ++ [47]) id)) (w_names (del_name w p0))) eqn:Ex; eexists; eexists; [apply s_rmdir_notempty; eassumption|apply s_rmdir; eassumption]|..];
      eexists; eexists; [eapply s_rmdir_notdir; [exact Ed|discriminate]|eapply s_rmdir_notdir; [exact Ed|discriminate]|apply s_rmdir_noent; exact Ed]|].
    intros w2 r2 H2. split; [left; reflexivity|].
    assert (Hd : w2 = del_name w p0 \/ w2 = del_name (del_name w p0) (subdir (root ++ [47]) id)) by (destruct (sys_rmdir _ _ _ _ _ H2) as [->|(-> & _)]; auto).
    destruct Hd as [->| ->].
    + split; [intros p; rewrite name_del; destruct (beq _ _); auto|]. intros p Hp. apply name_del_other. auto.
    + split; [intros p; rewrite !name_del; destruct (beq _ _); [auto|]; destruct (beq _ _); auto|]. intros p Hp. rewrite !name_del_other; auto.
  - split; [eauto using sys|]. intros w1 r1 H1. inversion H1; subst; try discriminate; try congruence. cbn [ends]. auto.
Qed.

Lemma remove_ends w id : id_ok id = true -> (forall p, chunk_name root p -> name_at w p <> Some NDir) ->
  ends false w (chunk_file_remove (root ++ [47]) id) (fun w' r => (r = Ok tt \/ r = Err ENOENT) /\
    (forall p, chunk_name root p -> name_at w' p <> Some NDir) /\ (forall p, of_queue root p -> name_at w' p = name_at w p)).
Proof.
  intros Hid Hc. assert (forall s, s = [] \/ s = cacnk -> chunk_name root (chunk_id_format_path (root ++ [47]) id s)) as Hcn by (intros s Hs; exists id, s; auto).
  unfold chunk_file_remove. apply ends_bind. eapply ends_mono; [|apply (queue_unlink_ends w id []); [exact Hid|auto|apply Hc; apply Hcn; auto]].
  cbv beta. intros w1 r1 (Hr & Ha & Hb).
  assert (Hc1 : forall p, chunk_name root p -> name_at w1 p <> Some NDir) by (intros p Hp; destruct (Ha p) as [->| ->]; [discriminate|auto]).
  assert (ends false w1 (chunk_file_unlink (root ++ [47]) id cacnk) (fun w' r => (r = Ok tt \/ r = Err ENOENT) /\
    (forall p, chunk_name root p -> name_at w' p <> Some NDir) /\ (forall p, of_queue root p -> name_at w' p = name_at w p))) as HH.
  { eapply ends_mono; [|apply (queue_unlink_ends w1 id cacnk); [exact Hid|auto|apply Hc1; apply Hcn; auto]]. cbv beta. intros w2 r2 (Hr2 & Ha2 & Hb2). split; [exact Hr2|]. split.
    - intros p Hp. destruct (Ha2 p) as [->| ->]; [discriminate|auto].
    - intros p Hp. rewrite Hb2, Hb by exact Hp. reflexivity. }
  destruct Hr as [->| ->]; exact HH.
Qed.

Lemma forget_ends fuel w q s T id : (1 <= fuel)%nat -> inv w q s T -> id_ok id = true -> (forall b, q_end b q + 1 < two64) -> assoc (known s) id <> None ->
  ends false w (forget_chunk fuel q id) (fun w' r => r = Ok tt /\ exists T', inv w' q (leave s id) T').
Proof.
  intros Hfuel I Hid Hmax Hk. destruct (known_cases w q s T id I Hid) as [(E & _)|(b & n & E & Hn & Hnth & Hm & Hs)]; [contradiction|].
  unfold forget_chunk. destruct (q_open q) eqn:Ho; cbn [negb].
  2: { exfalso. rewrite (i_open _ _ _ _ _ I Ho b) in Hnth. destruct (N.to_nat n); discriminate Hnth. }
  unfold chunk_link. rewrite (i_path _ _ _ _ _ I). change (in_cache root (s_chunks ++ 47 :: chunk_id_format id)) with (mark id).
  assert (n < two64) as Hn64 by (specialize (Hmax b); lia).
  apply ends_bind. apply (readlink_malloc_link _ (queue_pos b n)); [exact Hm| |exact Hfuel|lia|pose proof (queue_pos_len b n Hn64); lia].
  change (s_low ++ [47]) with (queue_name false ++ [47]). change (s_high ++ [47]) with (queue_name true ++ [47]). rewrite !level_pos.
  replace (match (if Bool.eqb b false then Some (dec n) else None) with Some p => Some p | None => if Bool.eqb b true then Some (dec n) else None end) with (Some (dec n)) by (destruct b; reflexivity).
  rewrite safe_atou64_dec by (change UINT64_MAX with (two64 - 1); lia).
  change (in_cache root (queue_pos b n)) with (slot b n).
  cbn [ends]. split; [eexists; eexists; eapply s_unlink; [exact Hm|discriminate]|]. intros w1 r1 H1. inversion H1; subst; try discriminate; try congruence. cbn [ends].
  assert (name_at (del_name w (mark id)) (slot b n) = Some (NLink (chunk_id_format id))) as Hs' by (rewrite name_del_other by (apply not_eq_sym, slot_mark); exact Hs).
  split; [eexists; eexists; eapply s_unlink; [exact Hs'|discriminate]|]. intros w2 r2 H2. inversion H2; subst; try discriminate; try congruence.
  pose proof (inv_leave root w q s T b n id I Hnth) as J. unfold forget_file. rewrite (i_path _ _ _ _ _ I). apply ends_bind.
  eapply ends_mono; [|apply remove_ends; [exact Hid|apply (i_chunk _ _ _ _ _ J)]]. cbv beta. intros w3 r3 (Hr & Hc & Hq).
  assert (inv w3 q (leave s id) (cleared T id)) as J3 by (apply (inv_names root _ w3 _ _ _ Hq Hc J)).
  destruct Hr as [->| ->]; cbn [ends]; (split; [reflexivity|exists (cleared T id); exact J3]).
Qed.

Lemma op_ends fuel w q s T o : inv w q s T -> (forall b, q_end b q + 1 < two64) -> q_end true q + q_end false q < N.of_nat fuel -> sensible s [o] ->
  ends false w (op_prog fuel q o) (fun w' r => snd r = snd (expect s o) /\ (forall b, q_end b (fst r) <= q_end b q + 1) /\ exists T', inv w' (fst r) (fst (expect s o)) T').
Proof.
  intros I Hmax Hf [Hs _]. assert (1 <= fuel)%nat as Hfuel by lia. destruct o as [id hi again|only|id]; cbn [op_prog].
  - apply ends_bind. eapply ends_mono; [|apply (enqueue_ends fuel w q s T id hi again); assumption]. cbv beta. intros w' r (A & _ & C & D). cbn [ends fst snd].
    rewrite A. unfold expect. destruct (ask s id hi again) as [s' b']. cbn [fst snd] in *. auto.
  - apply ends_bind. eapply ends_mono; [|apply (dequeue_ends fuel w q s T only); assumption]. cbv beta. intros w' r (A & C & D). cbn [ends fst snd].
    rewrite A. unfold expect. destruct (next s only) as [s' [[x hi]|]]; cbn [fst snd] in *; (split; [reflexivity|]); (split; [intros b; rewrite C; lia|exact D]).
  - destruct Hs as [Hid Hk]. apply ends_bind. eapply ends_mono; [|apply (forget_ends fuel w q s T id); assumption]. cbv beta. intros w' r (-> & D). cbn [ends fst snd expect].
    split; [reflexivity|]. split; [intros; lia|exact D].
Qed.
End Ops.
