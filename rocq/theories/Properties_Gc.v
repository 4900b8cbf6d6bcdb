(** C36: garbage collection. *)
From Coq Require Import Permutation.
From Verif Require Import Base FeatureFlags ChunkId ChunkIdProofs Posix PosixProofs ChunkFile Store StoreSpec StoreProofs1 StoreProofs4 Index IndexSpec IndexProofs Properties_Index Gc GcSpec GcProofs1 GcProofs2 GcProofs3 GcProofs4.
Local Open Scope N_scope.

(** C36. Whatever fails, and whatever a run comes to: no file content is changed; the files of every chunk that one of the indexes
    lists are where they were; a dry run changes nothing at all; and each name that is gone was either a file named *.cacnk after
    a chunk which no index lists, or a directory in the store's directory, empty by then. *)
Theorem gc_keeps_referenced :
  forall faults fuel dry files root w w' r,
  files_ok files -> c_names w -> exec faults w (gc fuel dry files root) w' r ->
  w_inodes w' = w_inodes w /\
  (dry = true -> w' = w) /\
  (forall id c, referenced files id -> id_ok id = true -> c = UNCOMPRESSED \/ c = COMPRESSED ->
     name_at w' (chunk_name root id c) = name_at w (chunk_name root id c)) /\
  (forall q, name_at w' q <> name_at w q -> name_at w' q = None /\ exists n, name_at w q = Some n /\
     ((n <> NDir /\ doomed (referenced files) q) \/ (n = NDir /\ in_root root q /\ existsb (in_dir q) (w_names w') = false))).
Proof.
  intros faults fuel dry files root w w' r Hf Hc H. unfold gc in H.
  assert (forall v, w' = v -> v = w -> w_inodes w' = w_inodes w /\ (dry = true -> w' = w) /\
    (forall id c, referenced files id -> id_ok id = true -> c = UNCOMPRESSED \/ c = COMPRESSED -> name_at w' (chunk_name root id c) = name_at w (chunk_name root id c)) /\
    (forall q, name_at w' q <> name_at w q -> name_at w' q = None /\ exists n, name_at w q = Some n /\
     ((n <> NDir /\ doomed (referenced files) q) \/ (n = NDir /\ in_root root q /\ existsb (in_dir q) (w_names w') = false)))) as Same.
  { intros v -> ->. split; [reflexivity|]. split; [reflexivity|]. split; [reflexivity|]. intros q Hq. exfalso. apply Hq. reflexivity. }
  destruct (add_indexes fuel files []) as [[u|e| |]|] eqn:E; [|apply exec_ret_inv in H; destruct H as [-> _]; eapply Same; reflexivity..|inversion H].
  destruct (collected _ _ _ Hf E) as [_ Hu]. destruct (gc_cleanup_exec _ _ _ _ _ _ _ H) as [P Hd].
  split; [apply P|]. split; [exact Hd|]. split.
  - intros id c Hr Hid Hcc. eapply pruned_keeps; [exact Hid|exact P|]. destruct Hcc as [-> | ->]; [auto|right]. split; [reflexivity|apply Hu; exact Hr].
  - intros q Hq. pose proof (pruned_named _ _ _ _ _ P Hc Hq) as Cq. destruct P as (_ & _ & _ & P). destruct (P q) as [X|(Hn' & n & Hn & D)]; [contradiction|].
    split; [exact Hn'|]. exists n. split; [exact Hn|]. destruct D as [[Hd1 Hd2]|D]; [left|right; exact D]. split; [exact Hd1|].
    eapply condemned_doomed; [|exact Cq|exact Hd2]. intros i Hi. apply Hu. exact Hi.
Qed.
Print Assumptions gc_keeps_referenced.

(** C36. The same at any moment, while any number of collections run on the store at the same time, any of which may be killed: what
    the indexes of each of them list is there. *)
Theorem gc_keeps_referenced_at_any_moment :
  forall runs root w w' ps id c,
  Forall (fun x => files_ok (snd x) /\ referenced (snd x) id) runs -> id_ok id = true -> c = UNCOMPRESSED \/ c = COMPRESSED ->
  psteps (w, map (fun x : (nat * bool) * list (option (list N)) => do _ <- gc (fst (fst x)) (snd (fst x)) (snd x) root ;; Ret tt) runs) (w', ps) ->
  w_inodes w' = w_inodes w /\ name_at w' (chunk_name root id c) = name_at w (chunk_name root id c).
Proof.
  intros runs root w w' ps id c HF Hid Hc H.
  assert (forall A (p : prog A), prunes [id] root p -> prunes [id] root (do _ <- p ;; Ret tt)) as B.
  { intros A p. induction p as [a| |c0 k IH]; intros Hp; [exact I|exact I|]. cbn [pbind prunes] in *. destruct c0; try contradiction.
    - destruct Hp as [Hp Hk]. split; [exact Hp|]. auto.
    - destruct Hp as [Hp Hk]. split; [exact Hp|]. auto.
    - auto.
    - intros r Hr. auto. }
  apply (psteps_prunes [id] root) in H.
  - cbn [fst snd] in H. destruct H as [P _]. split; [apply P|]. eapply pruned_keeps; [exact Hid|exact P|]. destruct Hc as [-> | ->]; [auto|right]. split; [reflexivity|left; reflexivity].
  - cbn [snd]. apply Forall_forall. intros p Hp. apply in_map_iff in Hp. destruct Hp as ([[fuel dry] files] & <- & Hin). cbn [fst snd].
    rewrite Forall_forall in HF. destruct (HF _ Hin) as [Hf Hr]. cbn [snd] in *. apply B, gc_prunes. intros u Hu i [<-|[]].
    destruct (collected _ _ _ Hf Hu) as [_ X]. apply X. exact Hr.
Qed.
Print Assumptions gc_keeps_referenced_at_any_moment.

(** C36. When nothing fails, in a store which has only directories in its directory, with complete indexes: the collection comes to
    an end and succeeds, and then no compressed chunk is left that no index lists. (Missing for the full property: chunks stored
    uncompressed are left, see gc_uncompressed_refuted.) *)
Theorem gc_removes_unreferenced_partial :
  forall fuel files root w,
  files_ok files -> (forall f, In f files -> good_index f) -> tidy w root ->
  (forall data, In (Some data) files -> len data < 40 * N.of_nat fuel) ->
  ends false w (gc fuel false files root) (fun w' r => r = Ok tt /\
    forall id, id_ok id = true -> ~ referenced files id -> name_at w (dirname (chunk_name root id COMPRESSED)) = Some NDir ->
      name_at w' (chunk_name root id COMPRESSED) = None \/ name_at w' (chunk_name root id COMPRESSED) = Some NDir).
Proof.
  intros fuel files root w Hf Hg Ht Hl. destruct (collects fuel files Hf Hg Hl) as [u E]. unfold gc. rewrite E.
  destruct (collected _ _ _ Hf E) as [_ Hu]. eapply ends_mono; [|apply gc_cleanup_ends; exact Ht].
  intros w' r [Hr H]. split; [exact Hr|]. intros id Hid Hn Hd. apply H; [exact Hid| |exact Hd]. intros X. apply Hn, Hu. exact X.
Qed.
Print Assumptions gc_removes_unreferenced_partial.

(** C36. If one of the indexes is not complete and well-formed, or isn't there, nothing is removed, and success is not reported. *)
Theorem gc_bad_index_removes_nothing :
  forall faults fuel dry files root w w' r f,
  files_ok files -> In f files -> ~ good_index f -> exec faults w (gc fuel dry files root) w' r -> w' = w /\ r <> Ok tt /\ r <> UB.
Proof.
  intros faults fuel dry files root w w' r f Hf Hin Hg H. unfold gc in H. destruct (add_indexes fuel files []) as [[u|e| |]|] eqn:E.
  - exfalso. apply Hg. apply (proj1 (collected _ _ _ Hf E)). exact Hin.
  - ret H. split; [reflexivity|]. split; discriminate.
  - ret H. split; [reflexivity|]. split; discriminate.
  - exfalso. clear H Hin Hg. revert E. generalize (@nil (list N)) as used. clear Hf. induction files as [|g files IH]; intros used E; cbn [add_indexes] in E; [discriminate|].
    destruct (add_index fuel g used) as [[u|e| |]|] eqn:Ea; try discriminate; [eapply IH; exact E|]. clear -Ea.
    destruct g as [data|]; [|rewrite add_index_none in Ea; discriminate]. unfold add_index in Ea. change (index_new CA_INDEX_READ (Some data) 0) with (fresh_reader data 0) in Ea.
    destruct (index_open (fresh_reader data 0)) as [[[]|e| |] s] eqn:O; try discriminate.
    + destruct (open_twice _ _ _ O) as [H1 H2]. destruct (open_mode _ _ _ O) as [H3 _]. clear O. revert s used H1 H2 H3 Ea.
      induction fuel as [|fuel IH]; intros s used H1 H2 H3 Ea; [discriminate|]. cbn [add_index_loop] in Ea.
      pose proof (read_no_ub s H1 H2 H3) as NU. destruct (index_read_chunk s) as [[[[[id off] sz]|]|e| |] s'] eqn:R; cbn [fst] in NU; try discriminate; [|congruence].
      destruct (read_step _ _ _ H1 H2 H3 R) as (A1 & A2 & A3 & _). eapply IH; eauto.
    + rewrite open_read_eq in O. pose proof (head_check_no_ub (takeN 64 data)) as NU.
      destruct (head_check (takeN 64 data)) as [[[[f0 mi] av] ma]|e| |]; try discriminate; [destruct e; discriminate|congruence].
  - inversion H.
Qed.
Print Assumptions gc_bad_index_removes_nothing.

(** What is wrong: (1) an index that was cut off is not reported but stops the program by an assertion: gc.c:108-110. *)
Theorem gc_cut_index_refuted :
  forall root w faults, exists data, forall w' r, exec faults w (gc 10 false [Some data] root) w' r -> r = Abort.
Proof.
  intros root w faults. exists (takeN 150 (index_image FORMAT_DEFAULT 16 64 256 sample_chunks)). intros w' r H.
  assert (gc 10 false [Some (takeN 150 (index_image FORMAT_DEFAULT 16 64 256 sample_chunks))] root = Ret Abort) as E by (unfold gc; vm_compute; reflexivity).
  rewrite E in H. ret H. reflexivity.
Qed.
Print Assumptions gc_cut_index_refuted.

(** (2) Chunks stored uncompressed are never removed, listed or not. *)
Theorem gc_uncompressed_refuted :
  forall faults fuel dry files root w w' r id,
  exec faults w (gc fuel dry files root) w' r -> id_ok id = true ->
  name_at w' (chunk_name root id UNCOMPRESSED) = name_at w (chunk_name root id UNCOMPRESSED).
Proof.
  intros faults fuel dry files root w w' r id H Hid. unfold gc in H.
  destruct (add_indexes fuel files []) as [[u|e| |]|] eqn:E; [|ret H; reflexivity..|inversion H].
  destruct (gc_cleanup_exec _ _ _ _ _ _ _ H) as [P _]. eapply pruned_keeps; [exact Hid|exact P|auto].
Qed.
Print Assumptions gc_uncompressed_refuted.

(** (3) With a file that is no directory and no chunk in the store's directory, the collection always fails: castore.c:387 takes the
    wrong error for "not a directory". *)
Theorem gc_stray_file_refuted :
  forall fuel files root d n x w w' r,
  root = d ++ [47] -> d <> [] -> no_slash n -> n <> [] -> n <> [46] -> n <> [46; 46] -> (forall pre, n <> pre ++ [46; 99; 97; 99; 110; 107]) ->
  name_at w (root ++ n) = Some x -> x <> NDir ->
  exec false w (gc fuel false files root) w' r -> r <> Ok tt.
Proof.
  intros fuel files root d n x w w' r -> Hd Hn Hne N1 N2 Hsuf Hx Hnd H. unfold gc in H.
  destruct (add_indexes fuel files []) as [[u|e| |]|] eqn:E; [|ret H; discriminate..|inversion H].
  unfold gc_cleanup_unused in H. apply exec_sys_inv in H. destruct H as (w1 & r1 & Hs & H).
  destruct (sys_opendir _ _ _ _ _ Hs) as [(X & _)|[-> [[-> _]|[e ->]]]]; [discriminate| |ret H; discriminate].
  apply exec_sys_inv in H. destruct H as (w1 & r1 & Hs1 & H).
  destruct (sys_list _ _ _ _ _ Hs1) as [(X & _)|(l & -> & -> & HP)]; [discriminate|].
  assert (dirname (d ++ [47]) = d) as Dr by (apply (dirname_app d []); intros []). rewrite Dr in *.
  assert (exists e, r = Err e) as [e ->]; [|discriminate].
  eapply (gc_subdirs_stray u (d ++ [47]) n x l); [intros e; apply (entries_no_slash _ _ _ _ HP)|exact N1|exact N2| |exact Hx|exact Hnd| |exact H].
  - assert (In (n, x) (dir_entries w d)) as Hin by (apply entry_listed; try assumption; rewrite <- app_assoc in Hx; exact Hx).
    apply (Permutation_in _ (Permutation_sym HP)) in Hin. apply (in_map fst) in Hin. exact Hin.
  - intros (d' & n' & id & Eq & Hn' & He & _). rewrite <- app_assoc in Eq. cbn [app] in Eq. symmetry in Eq. apply join_last in Eq; [|assumption..]. subst n'.
    destruct (endswith_inv _ _ He) as [pre Hp]. exact (Hsuf pre Hp).
Qed.
Print Assumptions gc_stray_file_refuted.

(** ** Cases *)

Definition gc_root : list N := [115; 47].                (* "s/" *)
Definition gc_files_case : list (option (list N)) := [Some (index_image FORMAT_DEFAULT 16 64 256 sample_chunks)].
Definition gc_world : world :=
  {| w_names := [(gc_root, NDir); (dirname (chunk_name gc_root (sample_id 1) COMPRESSED), NDir); (chunk_name gc_root (sample_id 1) COMPRESSED, NFile 0);
                 (dirname (chunk_name gc_root (sample_id 7) COMPRESSED), NDir); (chunk_name gc_root (sample_id 7) COMPRESSED, NFile 1)];
     w_inodes := [[1; 2; 3]; [4]]; w_fds := [] |}.

Example c36_case :
  files_ok gc_files_case /\ (forall f, In f gc_files_case -> good_index f) /\ c_names gc_world /\ tidy gc_world gc_root /\
  referenced gc_files_case (sample_id 1) /\ ~ referenced gc_files_case (sample_id 7).
Proof.
  assert (params_ok FORMAT_DEFAULT 16 64 256) as P by (vm_compute; repeat split; discriminate).
  assert (chunks_ok 256 sample_chunks) as C by (split; [repeat (constructor; try (vm_compute; repeat split; (reflexivity || discriminate)))|vm_compute; reflexivity]).
  assert (files_ok gc_files_case) as F. { intros data [H|[]]. injection H as <-. split; vm_compute; reflexivity. }
  split; [exact F|]. split; [intros f [<-|[]]; exists FORMAT_DEFAULT, 16, 64, 256, sample_chunks; auto|].
  split. { intros p n H. repeat destruct H as [H|H]; try (injection H as <- <-; vm_compute; reflexivity). destruct H. }
  split.
  { split; [exists [115]; split; [discriminate|reflexivity]|]. split; [vm_compute; reflexivity|].
    split; [vm_compute; repeat (constructor; [intros H; repeat destruct H as [H|H]; discriminate || exact H|]); constructor|].
    split; [intros p n H; repeat destruct H as [H|H]; try (injection H as <- <-; split; vm_compute; discriminate); destruct H|].
    intros p n H. repeat destruct H as [H|H]; try (injection H as <- <-; vm_compute; congruence). destruct H. }
  split; [exists FORMAT_DEFAULT, 16, 64, 256, sample_chunks; split; [exact P|]; split; [exact C|]; split; [left; reflexivity|vm_compute; auto]|].
  intros H. destruct (add_indexes 10 gc_files_case []) as [[u|e| |]|] eqn:E; try (vm_compute in E; discriminate).
  apply (proj2 (collected _ _ _ F E)) in H. vm_compute in E. injection E as <-. vm_compute in H. repeat destruct H as [H|H]; try discriminate. destruct H.
Qed.

(** (4) The entry .. of the store's directory is followed: a file in the directory the store is in may be removed. *)
Theorem gc_parent_refuted :
  exists root id w w' q, root = [97; 47; 115; 47] (* "a/s/" *) /\ q = [97; 47] ++ chunk_id_format id ++ cacnk /\
  name_at w q = Some (NFile 0) /\ exec false w (gc 1 false [] root) w' (Ok tt) /\ name_at w' q = None.
Proof.
  set (root := [97; 47; 115; 47]). set (q := [97; 47] ++ chunk_id_format (sample_id 1) ++ cacnk).
  set (w := {| w_names := [(root, NDir); (q, NFile 0)]; w_inodes := [[1]]; w_fds := [] |}).
  exists root, (sample_id 1), w, (del_name w q), q. split; [reflexivity|]. split; [reflexivity|]. split; [vm_compute; reflexivity|]. split; [|vm_compute; reflexivity].
  unfold gc. cbn [add_indexes]. unfold gc_cleanup_unused.
  eapply ex_sys; [apply s_opendir; vm_compute; reflexivity|]. cbv beta match.
  eapply ex_sys; [apply s_list, Permutation_refl|]. cbv beta match.
  assert (dir_entries w (dirname root) = [([46], NDir); ([46; 46], NDir)]) as E1 by (vm_compute; reflexivity). rewrite E1. cbn [gc_subdirs].
  change (beq [46] [46] || beq [46] [46; 46]) with true. change (beq [46; 46] [46] || beq [46; 46] [46; 46]) with true. cbv match.
  eapply ex_sys; [apply s_list, Permutation_refl|]. cbv beta match.
  assert (dir_entries w (entry_dir root [46]) = [([46], NDir); ([46; 46], NDir)]) as E2 by (vm_compute; reflexivity). rewrite E2.
  change (gc_files false [] root [46] [([46], NDir); ([46; 46], NDir)] ?k) with k.
  eapply ex_sys; [apply s_list, Permutation_refl|]. cbv beta match.
  assert (dir_entries w (entry_dir root [46; 46]) = [([46], NDir); ([46; 46], NDir); (chunk_id_format (sample_id 1) ++ cacnk, NFile 0)]) as E3 by (vm_compute; reflexivity). rewrite E3.
  assert (chunk_id_parse (before_dot (chunk_id_format (sample_id 1) ++ cacnk)) = Some (sample_id 1)) as E4 by (vm_compute; reflexivity).
  assert (is_chunk_file (chunk_id_format (sample_id 1) ++ cacnk, NFile 0) = true) as E5 by (vm_compute; reflexivity).
  cbn [gc_files]. change (is_chunk_file ([46], NDir)) with false. change (is_chunk_file ([46; 46], NDir)) with false. rewrite E5. cbn [negb fst]. rewrite E4. cbn [used_contains existsb].
  eapply ex_sys; [eapply s_unlink; [vm_compute; reflexivity|discriminate]|]. cbv beta match.
  eapply ex_sys; [apply s_rmdir_noent; vm_compute; reflexivity|]. cbv beta.
  assert (del_name w (join (entry_dir root [46; 46]) (chunk_id_format (sample_id 1) ++ cacnk)) = del_name w q) as -> by (vm_compute; reflexivity).
  constructor.
Qed.
Print Assumptions gc_parent_refuted.
