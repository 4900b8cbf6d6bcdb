(** The queue of requests: names, and the links that stand for the queues. *)
From Verif Require Import Base Locator Properties_Locator Number NumberProofs ChunkId ChunkIdProofs Posix PosixProofs ChunkFile Cache CacheProofs1 CacheProofs3 StoreSpec StoreProofs1 StoreProofs4 Queue QueueSpec.
Local Open Scope N_scope.

Lemma dec_inj a b : dec a = dec b -> a = b.
Proof.
  intros H. destruct (print_ok 10 a ltac:(lia) ltac:(lia)) as (Ha & _). destruct (print_ok 10 b ltac:(lia) ltac:(lia)) as (Hb & _).
  unfold dec in H. rewrite H in Ha. congruence.
Qed.
Lemma dec_no_slash n : no_slash (dec n).
Proof. unfold no_slash. apply dec_not_in. reflexivity. Qed.

Lemma digits_of_len b : forall fuel n, len (digits_of fuel b n) <= N.of_nat fuel.
Proof.
  induction fuel as [|fuel IH]; intros n; [apply N.le_refl|]. cbn [digits_of]. rewrite len_app. destruct (n <? b).
  - change (@len N []) with 0. rewrite len_cons. change (@len N []) with 0. lia.
  - specialize (IH (n / b)). rewrite len_cons. change (@len N []) with 0. lia.
Qed.
Lemma dec_len n : n < two64 -> len (dec n) <= 65.
Proof.
  intros H. unfold dec, print. pose proof (digits_of_len 10 (S (N.to_nat (N.log2 n))) n) as Hl. assert (N.log2 n <= 63); [|lia].
  destruct (N.eq_dec n 0) as [->|Hz]; [cbn; lia|]. apply N.lt_succ_r. apply N.log2_lt_pow2; [lia|]. exact H.
Qed.

Lemma level_no_slash hi : no_slash (queue_name hi).
Proof. destruct hi; apply no_slash_lit; reflexivity. Qed.
Lemma chunks_no_slash : no_slash s_chunks.
Proof. apply no_slash_lit; reflexivity. Qed.

Lemma two_inj (root d x d' x' : list N) : no_slash x -> no_slash x' -> root ++ 47 :: d ++ 47 :: x = root ++ 47 :: d' ++ 47 :: x' -> d = d' /\ x = x'.
Proof.
  intros Hx Hx' H. apply app_inv_head in H. assert (d ++ 47 :: x = d' ++ 47 :: x') as E by congruence.
  split; [rewrite <- (dirname_app d x Hx), <- (dirname_app d' x' Hx'), E; reflexivity|rewrite <- (basename_app d x Hx), <- (basename_app d' x' Hx'), E; reflexivity].
Qed.
Lemma one_two (root d d' x : list N) : no_slash d -> root ++ 47 :: d <> root ++ 47 :: d' ++ 47 :: x.
Proof.
  intros Hd H. apply app_inv_head in H. assert (d = d' ++ 47 :: x) as E by congruence. apply Hd. rewrite E. apply in_or_app. right. left. reflexivity.
Qed.
Lemma root_one (root : list N) (d : list N) : root <> root ++ 47 :: d.
Proof. intros H. apply (f_equal (@length N)) in H. rewrite app_length in H. cbn in H. lia. Qed.

Section Names.
Context (root : list N).

Definition slot (hi : bool) (n : N) : list N := in_cache root (queue_pos hi n).
Definition mark (id : list N) : list N := in_cache root (s_chunks ++ 47 :: chunk_id_format id).
Definition folder (d : list N) : list N := in_cache root d.

Lemma slot_inj hi n hi' n' : slot hi n = slot hi' n' -> hi = hi' /\ n = n'.
Proof.
  intros H. apply two_inj in H; [|apply dec_no_slash|apply dec_no_slash]. destruct H as [H1 H2]. split; [|apply dec_inj; exact H2].
  destruct hi, hi'; [reflexivity|discriminate H1|discriminate H1|reflexivity].
Qed.
Lemma mark_inj a b : id_ok a = true -> id_ok b = true -> mark a = mark b -> a = b.
Proof. intros Ha Hb H. apply two_inj in H; [|apply format_no_slash|apply format_no_slash]. destruct H as [_ H]. exact (format_inj a b Ha Hb H). Qed.
Lemma slot_mark hi n id : slot hi n <> mark id.
Proof. intros H. apply two_inj in H; [|apply dec_no_slash|apply format_no_slash]. destruct H as [H _]. destruct hi; discriminate H. Qed.
Lemma dir_slot d hi n : no_slash d -> folder d <> slot hi n.
Proof. intros Hd. apply one_two. exact Hd. Qed.
Lemma dir_mark d id : no_slash d -> folder d <> mark id.
Proof. intros Hd. apply one_two. exact Hd. Qed.
Lemma root_slot hi n : root <> slot hi n.
Proof. apply root_one. Qed.
Lemma root_mark id : root <> mark id.
Proof. apply root_one. Qed.
Lemma root_dir d : root <> folder d.
Proof. apply root_one. Qed.
Lemma dir_inj d d' : folder d = folder d' -> d = d'.
Proof. unfold folder, in_cache. intros H. apply app_inv_head in H. congruence. Qed.
Lemma dirname_slot hi n : dirname (slot hi n) = folder (queue_name hi).
Proof. unfold slot, in_cache, queue_pos. replace (root ++ 47 :: queue_name hi ++ 47 :: dec n) with ((root ++ 47 :: queue_name hi) ++ 47 :: dec n) by (rewrite <- app_assoc; reflexivity). apply dirname_app. apply dec_no_slash. Qed.
Lemma dirname_mark id : dirname (mark id) = folder s_chunks.
Proof. unfold mark, in_cache. replace (root ++ 47 :: s_chunks ++ 47 :: chunk_id_format id) with ((root ++ 47 :: s_chunks) ++ 47 :: chunk_id_format id) by (rewrite <- app_assoc; reflexivity). apply dirname_app. apply format_no_slash. Qed.

(** Names of cached chunks are none of these. *)
Lemma chunk_file_form id s : chunk_id_format_path (root ++ [47]) id s = root ++ 47 :: firstn 4 (chunk_id_format id) ++ 47 :: chunk_id_format id ++ s.
Proof. unfold chunk_id_format_path. rewrite <- !app_assoc. reflexivity. Qed.

Lemma firstn_len4 id : id_ok id = true -> length (firstn 4 (chunk_id_format id)) = 4%nat.
Proof. intros H. rewrite firstn_length, (id_ok_format _ H). reflexivity. Qed.

Lemma queue_not_chunk p : of_queue root p -> ~ chunk_name root p.
Proof.
  intros [->|(d & Hd & [->|[x ->]])] (id & s & Hid & Hs & E); rewrite chunk_file_form in E.
  - exact (root_one _ _ E).
  - assert (no_slash d) as Hn by (cbn in Hd; destruct Hd as [<-|[<-|[<-|[]]]]; [apply chunks_no_slash|apply (level_no_slash true)|apply (level_no_slash false)]).
    exact (one_two _ _ _ _ Hn E).
  - apply app_inv_head in E. apply (f_equal (@tl N)) in E. cbn [tl] in E. pose proof (firstn_len4 id Hid) as Hl.
    assert (nth 4 (d ++ 47 :: x) 0 = 47) as E4. { rewrite E. rewrite app_nth2 by lia. rewrite Hl. reflexivity. }
    cbn in Hd. destruct Hd as [<-|[<-|[<-|[]]]]; discriminate E4.
Qed.
Lemma queue_not_folder p id : id_ok id = true -> of_queue root p -> p <> subdir (root ++ [47]) id.
Proof.
  intros Hid Hq E. assert (E' : subdir (root ++ [47]) id = root ++ 47 :: firstn 4 (chunk_id_format id)) by (unfold subdir; rewrite <- app_assoc; reflexivity).
  rewrite E' in E. pose proof (firstn_len4 id Hid) as Hl. destruct Hq as [->|(d & Hd & [->|[x ->]])].
  - exact (root_one _ _ E).
  - apply app_inv_head in E. apply (f_equal (@tl N)) in E. cbn [tl] in E. rewrite <- E in Hl. clear E. cbn in Hd. destruct Hd as [<-|[<-|[<-|[]]]]; discriminate Hl.
  - symmetry in E. apply one_two in E; [exact E|]. intros X. apply (format_no_slash id). clear -X. rewrite <- (firstn_skipn 4 (chunk_id_format id)). apply in_or_app. left. exact X.
Qed.
Lemma of_root : of_queue root root. Proof. left. reflexivity. Qed.
Lemma level_in hi : In (queue_name hi) [s_chunks; s_high; s_low].
Proof. destruct hi; cbn; auto. Qed.
Lemma of_slot hi n : of_queue root (slot hi n).
Proof. right. exists (queue_name hi). split; [apply level_in|]. right. exists (dec n). reflexivity. Qed.
Lemma of_mark id : of_queue root (mark id).
Proof. right. exists s_chunks. split; [cbn; auto|]. right. exists (chunk_id_format id). reflexivity. Qed.
Lemma of_dir d : In d [s_chunks; s_high; s_low] -> of_queue root (folder d).
Proof. intros H. right. exists d. split; [exact H|]. left. reflexivity. Qed.
End Names.

(** ** Slots of a queue *)
Definition holds_id (id : list N) (o : option (list N)) : bool := match o with Some x => beq x id | None => false end.
Definition clear (id : list N) (l : list (option (list N))) : list (option (list N)) := map (fun o => if holds_id id o then None else o) l.
Fixpoint somes (l : list (option (list N))) : list (list N) :=
  match l with [] => [] | Some x :: l => x :: somes l | None :: l => somes l end.

Lemma somes_app a b : somes (a ++ b) = somes a ++ somes b.
Proof. induction a as [|[x|] a IH]; cbn; [reflexivity|rewrite IH; reflexivity|exact IH]. Qed.
Lemma somes_clear id l : somes (clear id l) = without id (somes l).
Proof.
  induction l as [|[x|] l IH]; cbn [clear map somes without filter holds_id]; [reflexivity| |exact IH].
  destruct (beq x id); cbn [negb somes]; [exact IH|]. f_equal. exact IH.
Qed.
Lemma in_somes x l : In x (somes l) <-> In (Some x) l.
Proof.
  induction l as [|[y|] l IH]; cbn [somes In]; [tauto| |].
  - split; intros [H|H]; [left; congruence|right; apply IH; exact H|left; congruence|right; apply IH; exact H].
  - rewrite IH. split; [auto|intros [H|H]; [discriminate|exact H]].
Qed.
Lemma in_clear x id l : In (Some x) (clear id l) <-> In (Some x) l /\ x <> id.
Proof.
  unfold clear. rewrite in_map_iff. split.
  - intros ([y|] & E & H); cbn [holds_id] in E; [|discriminate]. destruct (beq y id) eqn:B; [discriminate|]. injection E as ->. split; [exact H|]. apply beq_neq. exact B.
  - intros [H Hx]. exists (Some x). split; [|exact H]. cbn [holds_id]. apply beq_neq in Hx. rewrite Hx. reflexivity.
Qed.
Lemma len_clear id l : len (clear id l) = len l.
Proof. unfold clear, len. rewrite map_length. reflexivity. Qed.
Lemma dropN_clear id n l : dropN n (clear id l) = clear id (dropN n l).
Proof. unfold dropN, clear. rewrite skipn_map. reflexivity. Qed.
Lemma nth_clear id l n : nth_error (clear id l) n = match nth_error l n with Some o => Some (if holds_id id o then None else o) | None => None end.
Proof. unfold clear. rewrite nth_error_map. destruct (nth_error l n); reflexivity. Qed.
