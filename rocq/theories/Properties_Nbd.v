(** C54: casync mkdev serves the blob. *)
From Coq Require Import Lia.
From Verif Require Import Base ArchiveBase Decoder Seek Nbd NbdSpec NbdProofs.
Local Open Scope N_scope.

(** For every blob that isn't empty (and whose rounded size fits into 64 bits), every sequence of valid requests of the kernel, and every way of the blob's
    data becoming available, in pieces of any size and with waiting in between, each request is answered with the device's bytes at
    that place, in order. When reading the blob fails with an error, mkdev ends with it, having answered some of the first requests, rightly,
    and having written nothing else. *)
Theorem mkdev_serves_the_blob : forall env hash b fuel next rs,
  0 < len b -> len b < two64 - 512 ->
  Forall (fun r => match r with Ok _ | Err _ => True | _ => False end) next ->
  Forall (valid_request b) rs ->
  (N.to_nat (2 * len b) + length next + 4 <= fuel)%nat ->
  mkdev env hash b fuel 0x8000 next (map request_bytes rs) = (Ok tt, concat (map (reply b) rs)) \/
  (exists e k, In (Err e) next /\ mkdev env hash b fuel 0x8000 next (map request_bytes rs) = (Err e, concat (map (reply b) (firstn k rs)))).
Proof. exact mkdev_right. Qed.
Print Assumptions mkdev_serves_the_blob.

(** Without errors, all are answered. *)
Theorem mkdev_answers_all : forall env hash b fuel next rs,
  0 < len b -> len b < two64 - 512 ->
  Forall (fun r => match r with Ok _ => True | _ => False end) next ->
  Forall (valid_request b) rs ->
  (N.to_nat (2 * len b) + length next + 4 <= fuel)%nat ->
  mkdev env hash b fuel 0x8000 next (map request_bytes rs) = (Ok tt, concat (map (reply b) rs)).
Proof.
  intros env hash b fuel next rs P L O V F.
  destruct (mkdev_right env hash b fuel next rs P L) as [E | (e & k & I & _)]; auto.
  - refine (Forall_impl _ _ O). intros []; tauto.
  - rewrite Forall_forall in O. destruct (O _ I).
Qed.
Print Assumptions mkdev_answers_all.

(** A blob of 700 bytes (two sectors), read in pieces, with waiting: a request for the second sector, then one for both. *)
Definition blob700 : list N := map (fun k => N.of_nat k mod 251) (seq 0 700).
Definition env0 : denv := mkDenv UINT64_MAX UINT64_MAX.
Definition ask (from n : N) : request := mkRequest [1; 2; 3; 4; 5; 6; 7; 8] from n.
Lemma asks_valid : Forall (valid_request blob700) [ask 512 512; ask 0 1024].
Proof. repeat constructor; vm_compute; discriminate. Qed.
Example mkdev_case : exists out, mkdev env0 (fun _ => 0) blob700 2000 0x8000 [Ok 100; Ok 0; Ok 300; Ok 7] (map request_bytes [ask 512 512; ask 0 1024]) = (Ok tt, out) /\
  len out = 16 + 512 + 16 + 1024 /\ takeN 3 (dropN (16 + 186) out) = [196; 197; 0] /\ out = concat (map (reply blob700) [ask 512 512; ask 0 1024]).
Proof. eexists. split; [vm_compute; reflexivity|]. vm_compute. auto. Qed.

(** Reading the blob fails in the third request. *)
Example mkdev_fails : mkdev env0 (fun _ => 0) blob700 2000 0x8000 [Ok 1000; Ok 1000; Ok 1000; Ok 1000; Err EIO] (map request_bytes [ask 512 512; ask 0 1024; ask 0 512]) =
  (Err EIO, concat (map (reply blob700) [ask 512 512; ask 0 1024])).
Proof. vm_compute. reflexivity. Qed.

(** An empty blob can't be a device: mkdev refuses it, whatever is asked. *)
Theorem mkdev_empty : forall env hash fuel next ps, mkdev env hash [] fuel 0x8000 next ps = (Err EINVAL, []).
Proof. reflexivity. Qed.
Print Assumptions mkdev_empty.

(** The requests have to be of whole sectors, as the kernel makes them. One from behind the blob's end, within its last sector, is within the device too;
    it would never be answered: the decoder says "not found" in every round, and the loop goes on. *)
Definition ask_behind : request := mkRequest [1; 2; 3; 4; 5; 6; 7; 8] 701 3.
Lemma not_found_forever env hash b fuel : forall d y off n, y_eof y = false -> s_st (y_dec y) = SNowhere -> d_step (s_d (y_dec y)) = 0 ->
  d_nodes (s_d (y_dec y)) <> [] -> s_x (y_dec y) <> [] -> answer env hash b fuel d y off n [] = UB.
Proof.
  induction fuel as [|fuel IH]; intros d y off n E S Z N0 X0; [reflexivity|]. cbn [answer]. unfold sync_step. rewrite E. unfold sstep. rewrite S.
  destruct (d_nodes (s_d (y_dec y))) as [|nn up] eqn:N1; [congruence|]. destruct (s_x (y_dec y)) as [|x xs] eqn:X1; [congruence|].
  unfold advance_buffer. rewrite Z. change (0 =? 0) with true. cbn [bind].
  apply IH; cbn [y_eof y_dec]; unfold with_d; cbn [s_st s_d s_x]; auto; congruence.
Qed.
(** (UB stands for the fuel being used up.) *)
Theorem mkdev_unaligned_refuted : forall fuel, mkdev env0 (fun _ => 0) blob700 fuel 0x8000 [] [request_bytes ask_behind] = (UB, []).
Proof.
  intro fuel. unfold mkdev.
  match goal with |- context [sdec_new ?m] => let v := eval vm_compute in (sdec_new m) in change (sdec_new m) with v end.
  cbn [bind].
  match goal with |- context [set_size nbd_new (device_size blob700)] => let v := eval vm_compute in (set_size nbd_new (device_size blob700)) in
    replace (set_size nbd_new (device_size blob700)) with v by (vm_compute; reflexivity) end.
  cbn [bind nbd_open n_open n_size]. change (1024 =? 0) with false. cbn [bind serve].
  match goal with |- context [nbd_step ?d ?p] => let v := eval vm_compute in (nbd_step d p) in replace (nbd_step d p) with v by (vm_compute; reflexivity) end.
  cbn [bind].
  match goal with |- context [request_offset ?d] => replace (request_offset d) with (Ok 701) by (vm_compute; reflexivity) end.
  cbn [bind].
  match goal with |- context [request_size ?d] => replace (request_size d) with (Ok 3) by (vm_compute; reflexivity) end.
  cbn [bind].
  match goal with |- context [sync_seek ?b ?y 701] => destruct (sync_seek b y 701) as [y' | | |] eqn:E; try (vm_compute in E; discriminate) end.
  cbn [bind].
  assert (G : y_eof y' = false /\ s_st (y_dec y') = SNowhere /\ d_step (s_d (y_dec y')) = 0 /\ d_nodes (s_d (y_dec y')) <> [] /\ s_x (y_dec y') <> []).
  { vm_compute in E. inversion E. cbn. repeat split; discriminate. }
  destruct G as (G1 & G2 & G3 & G4 & G5). rewrite not_found_forever by assumption. reflexivity.
Qed.
Print Assumptions mkdev_unaligned_refuted.
