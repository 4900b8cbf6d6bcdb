(** Cloning the contents of extracted files from seeds (C53). *)
From Coq Require Import Lia ZArith.
From Verif Require Import Base Location Reflink ReflinkSpec ReflinkProofs.
Local Open Scope N_scope.

(** C53. Whatever the origin of a file's contents claims - any list of locations -, whichever calls fail, and while others delete, rename, replace or touch
    the seeds' files between any two system calls (but do not write to them): trying to share the file's data with the seeds leaves the file as it was,
    whether it ends with success, an error or an assertion failure. *)
Theorem reflink_keeps_contents ls w ts r w' ts' :
  Forall (fun t => match t_change t with Some (_, files) => forall i, f_data (files i) = f_data (w_files w i) | None => True end) ts ->
  node_reflink ls 0 0 (w, ts) = (r, (w', ts')) ->
  w_dst w' = w_dst w /\ forall i, f_data (w_files w' i) = f_data (w_files w i).
Proof.
  intros C E. destruct (node_reflink_good (fun i => f_data (w_files w i)) (w_dst w) ls 0 0 (w, ts) r (w', ts')) as [[A B] _].
  - split; [split; reflexivity | exact C].
  - exact E.
  - split; [exact B | exact A].
Qed.
Print Assumptions reflink_keeps_contents.

(** If the origin tells the truth, with pieces of less than 2 GiB, and nothing happens to the seeds, it does succeed, on every file system. *)
Theorem reflink_succeeds_partial ls w :
  f_kind (w_dst w) = FReg -> len (f_data (w_dst w)) <= OFF_MAX -> refusal_known w -> truthful w ls 0 ->
  exists n, node_reflink ls 0 0 (w, []) = (Ok n, (w, [])).
Proof. intros K L R T. exact (node_reflink_calm w K L R ls 0 0 T). Qed.
Print Assumptions reflink_succeeds_partial.

(** A file of 9000 bytes: the first 100 were sent, 8500 come from the same place in a seed, the rest from a seed that is gone. One block can be shared
    as the pieces before and behind it end inside of blocks. *)
Definition rl_loc (d : N) (p : list N) (o s : N) : loc := mkLoc d (Some p) o s (Some 1) 77 5 0%Z false UINT64_MAX UINT64_MAX [].
Definition rl_bytes : list N := map (fun k => N.of_nat k mod 251) (seq 0 9000).
Definition rl_seed : rfile := mkRfile FReg (repeat 7 100 ++ takeN 8500 (dropN 100 rl_bytes) ++ repeat 7 1000) 5 77 None.
Definition rl_world (e : option errno) : rworld :=
  mkRworld (fun _ p => if beq p [97] then Ok 3 else Err ENOENT) (fun _ => rl_seed) (mkRfile FReg rl_bytes 6 99 None) e.
Definition rl_origin : list loc := [rl_loc 118 [] 0 100; rl_loc 112 [97] 100 8500; rl_loc 112 [98] 0 400].
Example reflink_case :
  truthful (rl_world None) rl_origin 0 /\ refusal_known (rl_world (Some EOPNOTSUPP)) /\
  fst (node_reflink rl_origin 0 0 (rl_world None, [])) = Ok 4096 /\
  fst (node_reflink rl_origin 0 0 (rl_world (Some EOPNOTSUPP), [])) = Ok 0 /\
  f_data (w_dst (fst (snd (node_reflink rl_origin 0 0 (rl_world None, []))))) = rl_bytes.
Proof.
  split; [|split; [|split; [vm_compute; reflexivity|split; vm_compute; reflexivity]]].
  - cbn [truthful rl_origin]. split; [discriminate|]. split; [vm_compute; discriminate|]. split; [|split; [vm_compute; discriminate|split; [|split; [vm_compute; discriminate | exact I]]]].
    + intros _. split; [discriminate|]. right. exists 3. split; [reflexivity|]. unfold described. cbv zeta.
      split; [reflexivity|]. split; [right; split; [reflexivity | split; [reflexivity | discriminate]]|].
      split; [vm_compute; discriminate|]. split; [vm_compute; discriminate|]. split; [vm_compute; reflexivity|]. split; vm_compute; discriminate.
    + intros _. split; [discriminate|]. left. reflexivity.
  - intros e H. inversion H. right. cbn. auto.
Qed.

(** ** What fails *)
Lemma reflink_fd_large i w n : f_kind (w_files w i) = FReg -> f_kind (w_dst w) = FReg -> len (f_data (w_files w i)) = n -> len (f_data (w_dst w)) = n ->
  0x7ffff000 < n -> n <= OFF_MAX -> reflink_fd i 0 0 n (w, []) = (Abort, (w, [])).
Proof.
  intros K1 K2 D1 D2 L1 L2. unfold reflink_fd. change (0 mod FS_BLOCK_SIZE) with 0. cbn [N.eqb negb]. rewrite !N.add_0_l.
  assert (OM : OFF_MAX < two64) by reflexivity. rewrite N.mod_small by lia.
  destruct (n <? 0) eqn:X; [apply N.ltb_lt in X; lia|]. clear X. change (0 <? 0) with false. cbn [andb]. cbv zeta iota beta.
  unfold rbind at 1, sys_fstat at 1. cbn [syscall]. unfold rbind at 1, sys_fstat at 1. cbn [syscall file_of]. rewrite K1, K2, D1, D2.
  rewrite !N.add_0_l, N.leb_refl. cbn [andb negb]. unfold rbind at 1. unfold validate. rewrite !harder_calm by (unfold OFF_MAX; lia).
  rewrite N.min_r by (unfold MAX_RW_COUNT; lia). cbn [file_of]. rewrite !dropN_0, !len_takeN, D1.
  destruct (N.min MAX_RW_COUNT n =? n) eqn:X; [apply N.eqb_eq in X; unfold MAX_RW_COUNT in X; lia|]. reflexivity.
Qed.
(** A file of 2 GiB or more with the very same contents as the seed's file: one pread() does not return that much, which is taken for a difference, so that
    the process is aborted, also where cloning isn't supported. *)
Theorem reflink_large_refuted data e :
  0x7ffff000 < len data <= OFF_MAX ->
  let w := mkRworld (fun _ _ => Ok 3) (fun _ => mkRfile FReg data 5 77 None) (mkRfile FReg data 6 99 None) e in
  (forall l, l = rl_loc 112 [97] 0 (len data) -> takeN (size l) (dropN (offset l) (f_data (w_files w 3))) = f_data (w_dst w)) /\
  node_reflink [rl_loc 112 [97] 0 (len data)] 0 0 (w, []) = (Abort, (w, [])).
Proof.
  intros [L1 L2] w. split.
  - intros l ->. cbn [rl_loc size offset w w_files w_dst f_data]. rewrite dropN_0. apply takeN_all. lia.
  - cbn [node_reflink]. change (designator (rl_loc 112 [97] 0 (len data)) =? DES_PAYLOAD) with true. cbv iota.
    rewrite location_open_calm by (cbn; congruence). change (w_at w (root (rl_loc 112 [97] 0 (len data))) (strempty (path (rl_loc 112 [97] 0 (len data))))) with (@Ok N 3).
    cbv iota beta. change (_ || _) with true. cbv iota.
    change (offset (rl_loc 112 [97] 0 (len data))) with 0. change (size (rl_loc 112 [97] 0 (len data))) with (len data).
    rewrite (reflink_fd_large 3 w (len data)); try reflexivity; assumption.
Qed.
Print Assumptions reflink_large_refuted.

(** Somebody writes to the seed's file between the check and the cloning: the wrong contents end up in the extracted file, and no error is reported - the
    second check compares the two files, which are the same now. [rl_swap]: the new contents appear just before the call number [k]. *)
Definition rl_small (b : N) : rfile := mkRfile FReg (repeat b 4096) 5 77 None.
Definition rl_world1 : rworld := mkRworld (fun _ _ => Ok 3) (fun _ => rl_small 1) (rl_small 1) None.
Definition rl_swap (k : nat) : list trouble := repeat (mkTrouble None None) k ++ [mkTrouble (Some (fun _ _ => Ok 3, fun _ => rl_small 2)) None].
Theorem reflink_race_refuted :
  truthful rl_world1 [rl_loc 112 [97] 0 4096] 0 /\
  match node_reflink [rl_loc 112 [97] 0 4096] 0 0 (rl_world1, rl_swap 6) with
  | (Ok n, (w, _)) => n = 4096 /\ f_data (w_dst w) = repeat 2 4096
  | _ => False
  end.
Proof.
  split; [|vm_compute; split; reflexivity].
  cbn [truthful]. split; [|split; [vm_compute; discriminate | exact I]]. intros _. split; [discriminate|]. right. exists 3. split; [reflexivity|].
  unfold described. cbv zeta. split; [reflexivity|]. split; [right; split; [reflexivity | split; [reflexivity | discriminate]]|].
  split; [vm_compute; discriminate|]. split; [vm_compute; discriminate|]. split; [vm_compute; reflexivity|]. split; vm_compute; discriminate.
Qed.
Print Assumptions reflink_race_refuted.

(** Written to a bit earlier, the process is aborted. *)
Theorem reflink_written_seed_refuted : fst (node_reflink [rl_loc 112 [97] 0 4096] 0 0 (rl_world1, rl_swap 2)) = Abort.
Proof. vm_compute. reflexivity. Qed.
Print Assumptions reflink_written_seed_refuted.

(** A seed's file that was replaced or touched since it was read - a file of the tree extracted over, for example - makes extraction fail, though its contents
    are not needed any more; one that was removed does not. *)
Theorem reflink_stale_refuted :
  let w := mkRworld (fun _ _ => Ok 3) (fun _ => mkRfile FReg (repeat 1 4096) 8 78 None) (rl_small 1) None in
  node_reflink [rl_loc 112 [97] 0 4096] 0 0 (w, []) = (Err ESTALE, (w, [])).
Proof. vm_compute. reflexivity. Qed.
Print Assumptions reflink_stale_refuted.
