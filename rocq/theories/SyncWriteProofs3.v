(** Putting chunks in a store one after the other: a put that succeeds leaves nothing in the way of the next one, and one that says EEXIST has found
    the chunk. *)
From Verif Require Import Base ChunkId ChunkIdProofs Posix PosixProofs ChunkFile Store StoreSpec StoreProofs1 StoreProofs2 StoreProofs3 StoreProofs4 StoreProofs5 StoreProofs6 StoreProofs9 SyncWriteSpec.
Local Open Scope N_scope.
Local Opaque BUFFER_SIZE CHUNK_LIMIT_MAX CHUNK_LIMIT_MIN.

Definition clear := SyncWriteSpec.tidy.

Lemma clear_unfold w root : clear w root <-> forall id, id_ok id = true ->
  (name_at w (subdir root id) = None \/ name_at w (subdir root id) = Some NDir) /\ forall v, name_at w (chunk_id_format_path root id (tmp_suffix v)) = None.
Proof.
  unfold clear, tidy, unobstructed. assert (forall id, dirname (chunk_name root id UNCOMPRESSED) = subdir root id) as E by (intros id; apply dirname_path; intros []).
  split; intros H id I; specialize (H id I); rewrite E in *; exact H.
Qed.

Lemma create_dir f w root id s w' fd : no_slash s -> id_ok id = true -> exec f w (chunk_file_create root id s) w' (Ok fd) -> name_at w' (subdir root id) = Some NDir.
Proof.
  intros Hsl Hid H. set (path := chunk_id_format_path root id s) in *. assert (dirname path = subdir root id) as Ed by (apply dirname_path; exact Hsl).
  unfold chunk_file_create in H. fold path in H. unfold ptry in H. apply exec_bind in H. destruct H as (w1 & r1 & H1 & H).
  destruct r1 as [made|e| |]; try (apply exec_ret_inv in H; destruct H; discriminate).
  apply exec_sys_inv in H; destruct H as (w2 & r2 & Hs & Hx).
  assert (forall e w3, exec f w3 (drop_subdir made path (@Err nat e)) w' (Ok fd) -> False) as K.
  { intros e w3 X. unfold drop_subdir in X. destruct made; [apply exec_sys_inv in X; destruct X as (w4 & r4 & _ & X)|]; apply exec_ret_inv in X; destruct X; discriminate. }
  destruct (sys_creat _ _ _ _ _ Hs) as [(_ & -> & e & -> & _)|Hr]; [exfalso; eapply K; exact Hx|].
  destruct (name_at w1 path) eqn:En; [destruct Hr as [-> ->]; exfalso; eapply K; exact Hx|].
  destruct Hr as [(-> & -> & _)|(-> & -> & D)]; [exfalso; eapply K; exact Hx|].
  apply exec_ret_inv in Hx. destruct Hx as [-> _]. rewrite Ed in D. rewrite name_add_fd, name_add_file.
  assert (beq path (subdir root id) = false) as ->; [|exact D]. apply beq_neq. intros E. symmetry in E. revert E. apply subdir_not_path. exact Hid.
Qed.

Lemma create_exist f w root id s w' : no_slash s -> id_ok id = true -> exec f w (chunk_file_create root id s) w' (Err EEXIST) -> name_at w (chunk_id_format_path root id s) <> None.
Proof.
  intros Hsl Hid H. set (path := chunk_id_format_path root id s) in *. assert (dirname path = subdir root id) as Ed by (apply dirname_path; exact Hsl).
  unfold chunk_file_create in H. fold path in H. unfold ptry in H. apply exec_bind in H. destruct H as (w1 & r1 & H1 & H).
  assert (name_at w1 path = name_at w path) as E1. { apply make_subdir_exec in H1. destruct H1 as [_ H1]. apply H1. rewrite Ed. apply subdir_not_path. exact Hid. }
  destruct r1 as [made|e| |]; try (apply exec_ret_inv in H; destruct H; discriminate).
  - apply exec_sys_inv in H; destruct H as (w2 & r2 & Hs & Hx).
    assert (forall e w3, exec f w3 (drop_subdir made path (@Err nat e)) w' (Err EEXIST) -> e = EEXIST) as K.
    { intros e w3 X. unfold drop_subdir in X. destruct made; [apply exec_sys_inv in X; destruct X as (w4 & r4 & _ & X)|]; apply exec_ret_inv in X; destruct X; congruence. }
    destruct (sys_creat _ _ _ _ _ Hs) as [(_ & -> & e & -> & F)|Hr]; [apply K in Hx; subst e; discriminate F|].
    destruct (name_at w1 path) eqn:En; [congruence|].
    destruct Hr as [(-> & -> & _)|(-> & -> & D)]; [apply K in Hx; discriminate Hx|]. apply exec_ret_inv in Hx. destruct Hx; discriminate.
  - apply exec_ret_inv in H. destruct H as [_ H]. injection H as <-. unfold make_subdir in H1. apply exec_sys_inv in H1. destruct H1 as (w2 & r2 & Hs & Hx).
    destruct (sys_mkdir _ _ _ _ _ Hs) as [(_ & -> & e & -> & F)|Hr].
    + destruct e; try discriminate F; apply exec_ret_inv in Hx; destruct Hx; discriminate.
    + destruct (name_at w (dirname path)); destruct Hr as [-> ->]; apply exec_ret_inv in Hx; destruct Hx; discriminate.
Qed.

Lemma rename_gone f w p q w' n : p <> q -> name_at w p = Some n -> exec f w (rename_noreplace p q) w' (Ok tt) -> name_at w' p = None.
Proof.
  intros Hpq Hn H. unfold rename_noreplace in H.
  assert (forall m, name_at (put_name (del_name w p) q m) p = None) as K by (intros m; rewrite name_put_other by congruence; rewrite name_del, beq_refl; reflexivity).
  apply exec_sys_inv in H; destruct H as (w1 & r1 & Hs & Hx).
  assert (forall e w1 w2, exec f w1 (Ret (@Err unit e)) w2 (Ok tt) -> False) as KE by (intros e u v X; apply exec_ret_inv in X; destruct X; discriminate).
  destruct (sys_rename_noreplace _ _ _ _ _ _ Hs) as [(_ & -> & e & -> & _)|Hr].
  2:{ rewrite Hn in Hr. destruct (name_at w q) eqn:Eq; destruct Hr as [-> ->].
      - cbn in Hx. exfalso. eapply KE; exact Hx.
      - apply exec_ret_inv in Hx. destruct Hx as [-> _]. apply K. }
  destruct (negb (errno_is_unsupported e)); [exfalso; eapply KE; exact Hx|].
  apply exec_sys_inv in Hx; destruct Hx as (w2 & r2 & Hs2 & Hx2).
  destruct (sys_link _ _ _ _ _ _ Hs2) as [(_ & -> & e2 & -> & _)|Hr].
  - destruct (negb (errno_is_unsupported e2)); [exfalso; eapply KE; exact Hx2|].
    apply exec_sys_inv in Hx2; destruct Hx2 as (w3 & r3 & Hs3 & Hx3).
    destruct (sys_access _ _ _ _ _ Hs3) as [(_ & -> & e3 & -> & Hf3)|Hr3].
    + destruct e3; try discriminate Hf3; exfalso; eapply KE; exact Hx3.
    + destruct (name_at w q) eqn:Eq; destruct Hr3 as [-> ->]; [exfalso; eapply KE; exact Hx3|].
      apply exec_sys_inv in Hx3; destruct Hx3 as (w4 & r4 & Hs4 & Hx4).
      destruct (sys_renameat _ _ _ _ _ _ Hs4) as [(_ & -> & e4 & -> & _)|Hr4]; [exfalso; eapply KE; exact Hx4|].
      rewrite Hn in Hr4. destruct Hr4 as (-> & -> & _). apply exec_ret_inv in Hx4. destruct Hx4 as [-> _]. apply K.
  - rewrite Hn in Hr. destruct (name_at w q) eqn:Eq.
    { destruct Hr as [-> ->]. cbn in Hx2. exfalso. eapply KE; exact Hx2. }
    destruct n as [| |i]; try (destruct Hr as [-> ->]; cbn in Hx2; exfalso; eapply KE; exact Hx2).
    destruct Hr as [-> ->]. set (w3 := put_name w q (NFile i)) in *.
    assert (name_at w3 p = Some (NFile i)) as Ep3 by (unfold w3; rewrite name_put_other by congruence; exact Hn).
    apply exec_sys_inv in Hx2; destruct Hx2 as (w4 & r4 & Hs4 & Hx4).
    destruct (sys_unlink _ _ _ _ _ Hs4) as [(_ & -> & e4 & -> & _)|Hr4].
    + apply exec_sys_inv in Hx4; destruct Hx4 as (w5 & r5 & Hs5 & Hx5). exfalso. eapply KE; exact Hx5.
    + rewrite Ep3 in Hr4. destruct Hr4 as [-> ->]. apply exec_ret_inv in Hx4. destruct Hx4 as [-> _]. rewrite name_del, beq_refl. reflexivity.
Qed.

Lemma rename_exist f w p q w' n : p <> q -> name_at w p = Some n -> exec f w (rename_noreplace p q) w' (Err EEXIST) -> name_at w q <> None.
Proof.
  intros Hpq Hn H Eq. unfold rename_noreplace in H.
  assert (forall e w1 w2, exec f w1 (Ret (@Err unit e)) w2 (Err EEXIST) -> e = EEXIST) as KE by (intros e u v X; apply exec_ret_inv in X; destruct X; congruence).
  apply exec_sys_inv in H; destruct H as (w1 & r1 & Hs & Hx).
  destruct (sys_rename_noreplace _ _ _ _ _ _ Hs) as [(_ & -> & e & -> & F1)|Hr].
  2:{ rewrite Hn, Eq in Hr. destruct Hr as [-> ->]. apply exec_ret_inv in Hx. destruct Hx; discriminate. }
  destruct (negb (errno_is_unsupported e)); [apply KE in Hx; subst e; discriminate F1|].
  apply exec_sys_inv in Hx; destruct Hx as (w2 & r2 & Hs2 & Hx2).
  destruct (sys_link _ _ _ _ _ _ Hs2) as [(_ & -> & e2 & -> & F2)|Hr].
  - destruct (negb (errno_is_unsupported e2)); [apply KE in Hx2; subst e2; discriminate F2|].
    apply exec_sys_inv in Hx2; destruct Hx2 as (w3 & r3 & Hs3 & Hx3).
    destruct (sys_access _ _ _ _ _ Hs3) as [(_ & -> & e3 & -> & Hf3)|Hr3].
    + destruct e3; try discriminate Hf3; apply KE in Hx3; discriminate Hx3.
    + rewrite Eq in Hr3. destruct Hr3 as [-> ->].
      apply exec_sys_inv in Hx3; destruct Hx3 as (w4 & r4 & Hs4 & Hx4).
      destruct (sys_renameat _ _ _ _ _ _ Hs4) as [(_ & -> & e4 & -> & F4)|Hr4]; [apply KE in Hx4; subst e4; discriminate F4|].
      rewrite Hn in Hr4. destruct Hr4 as (-> & -> & _). apply exec_ret_inv in Hx4. destruct Hx4; discriminate.
  - rewrite Hn, Eq in Hr.
    destruct n as [| |i]; try (destruct Hr as [-> ->]; cbn in Hx2; apply KE in Hx2; discriminate Hx2).
    destruct Hr as [-> ->]. set (w3 := put_name w q (NFile i)) in *.
    assert (name_at w3 p = Some (NFile i)) as Ep3 by (unfold w3; rewrite name_put_other by congruence; exact Hn).
    apply exec_sys_inv in Hx2; destruct Hx2 as (w4 & r4 & Hs4 & Hx4).
    destruct (sys_unlink _ _ _ _ _ Hs4) as [(_ & -> & e4 & -> & F4)|Hr4].
    + apply exec_sys_inv in Hx4; destruct Hx4 as (w5 & r5 & Hs5 & Hx5). apply KE in Hx5. subst e4. discriminate F4.
    + rewrite Ep3 in Hr4. destruct Hr4 as [-> ->]. apply exec_ret_inv in Hx4. destruct Hx4; discriminate.
Qed.

Lemma loop_write_noexist f fuel : forall w fd p w', exec f w (loop_write fuel fd p) w' (Err EEXIST) -> False.
Proof.
  induction fuel as [|n IH]; intros w fd p w' H; cbn [loop_write] in H; [inversion H|].
  destruct p as [|x p]; [apply exec_ret_inv in H; destruct H; discriminate|].
  apply exec_sys_inv in H. destruct H as (w1 & r1 & Hs & H). destruct r1 as [k| | | |e]; try (apply exec_ret_inv in H; destruct H; discriminate).
  - destruct (k <=? _); [eapply IH; exact H|apply exec_ret_inv in H; destruct H; discriminate].
  - apply exec_ret_inv in H. destruct H as [_ H]. injection H as <-. inversion Hs; subst; discriminate.
Qed.

Lemma save_compress_noexist f cd fuel : forall w fd s inp cc w', exec f w (save_compress_loop cd fuel fd s inp cc) w' (Err EEXIST) -> False.
Proof.
  induction fuel as [|n IH]; intros w fd s inp cc w' H; cbn [save_compress_loop] in H; [inversion H|].
  unfold compressor_encode in H. destruct (enc_step cd s true inp BUFFER_SIZE) as [[[[s' k] out] e]|]; [|apply exec_ret_inv in H; destruct H; discriminate].
  assert (forall r, exec f w (ptry (loop_write (S n) fd out) (fun _ => if CHUNK_LIMIT_MAX <=? cc + len out then Ret (Err EINVAL)
     else match r with CEof => if cc + len out <? CHUNK_LIMIT_MIN then Ret (Err EINVAL) else Ret (Ok tt) | _ => save_compress_loop cd n fd s' (dropN k inp) (cc + len out) end)) w' (Err EEXIST) -> False) as K.
  { clear H. intros r H. unfold ptry in H. apply exec_bind in H. destruct H as (w1 & r1 & H1 & H).
    destruct r1 as [|er| |]; try (apply exec_ret_inv in H; destruct H; discriminate).
    - destruct (CHUNK_LIMIT_MAX <=? cc + len out); [apply exec_ret_inv in H; destruct H; discriminate|].
      destruct r; try (eapply IH; exact H). destruct (_ <? _); apply exec_ret_inv in H; destruct H; discriminate.
    - apply exec_ret_inv in H. destruct H as [_ H]. injection H as <-. eapply loop_write_noexist. exact H1. }
  destruct e.
  - destruct (k <? len inp); [apply exec_ret_inv in H; destruct H; discriminate|]. apply (K CEof). exact H.
  - apply (K (if k <? len inp then CMore else CGood)). destruct (k <? len inp); exact H.
Qed.

Section Save.
Context (codecs : ctype -> option codec) (bound : N -> N) (HC : codecs_ok bound codecs).

Lemma save_clear f fuel w root id desired t p w' r : id_ok id = true -> len p < CHUNK_LIMIT_MAX -> clear w root ->
  exec f w (chunk_file_save codecs fuel root id UNCOMPRESSED desired t p) w' r ->
  (r = Ok tt -> clear w' root) /\ (r = Err EEXIST -> w' = w /\ present w root id = true).
Proof.
  intros Hid Hl Cl H. assert (Hx := H). rewrite clear_unfold in Cl.
  apply (save_exec codecs bound HC CHUNK_LIMIT_MAX (N.le_refl _)) with (p := p) in Hx; [|exact Hid|reflexivity|exact Hl]. destruct Hx as (_ & Hx & _).
  assert (forall (e : errno), e <> EEXIST -> (Err e = Ok tt -> clear w' root) /\ (@Err unit e = Err EEXIST -> w' = w /\ present w root id = true)) as KE by (intros e Ne; split; [discriminate|congruence]).
  unfold chunk_file_save in H. cbn [compression_eqb] in H. 
  destruct p as [|d0 data']; [ret H; apply KE; discriminate|]. set (data := d0 :: data') in *.
  unfold ptry at 1 in H. apply exec_bind in H. destruct H as (w1 & r1 & H1 & H). assert (T1 := H1). apply test_exec in H1. destruct H1 as [-> Hp].
  assert (r1 <> Err EEXIST) as T2.
  { intros ->. unfold chunk_file_test in T1. apply exec_bind in T1. destruct T1 as (w2 & r2 & T1 & T2).
    assert (forall s u v, exec f u (chunk_file_access root id s) v (Err EEXIST) -> False) as KA.
    { intros s u v X. unfold chunk_file_access in X. apply exec_sys_inv in X. destruct X as (w3 & r3 & Xs & X).
      destruct (sys_access _ _ _ _ _ Xs) as [(_ & -> & e & -> & F)|Q].
      - destruct e; try discriminate F; apply exec_ret_inv in X; destruct X; discriminate.
      - destruct (name_at u _); destruct Q as [-> ->]; apply exec_ret_inv in X; destruct X; discriminate. }
    destruct r2 as [[]|e| |].
    - apply exec_ret_inv in T2; destruct T2; discriminate.
    - eapply KA; exact T2.
    - apply exec_ret_inv in T2; destruct T2 as [_ T2]. injection T2 as <-. eapply KA. exact T1.
    - apply exec_ret_inv in T2; destruct T2; discriminate.
    - apply exec_ret_inv in T2; destruct T2; discriminate. }
  destruct r1 as [[]|er| |].
  - ret H. split; [discriminate|]. intros _. split; [reflexivity|]. symmetry. apply Hp. reflexivity.
  - specialize (Hp _ eq_refl). symmetry in Hp.
    apply exec_sys_inv in H. destruct H as (w1 & r1 & Hs & H). destruct (sys_random _ _ _ _ Hs) as [(_ & -> & e & -> & F)|(v & -> & -> & _)];
      [ret H; apply KE; intros ->; discriminate F|].
    cbv zeta in H. set (T := chunk_id_format_path root id (tmp_suffix v)) in *.
    unfold ptry in H. apply exec_bind in H. destruct H as (w1 & r1 & H1 & H). assert (G1 := H1). apply create_exec in G1; [|apply tmp_no_slash].
    destruct r1 as [fd|er| |]; try (ret H; split; discriminate).
    2:{ ret H. split; [discriminate|]. intros E. injection E as ->. exfalso. eapply create_exist; [apply tmp_no_slash|exact Hid|exact H1|]. apply Cl. exact Hid. }
    pose proof (create_dir _ _ _ _ _ _ _ (tmp_no_slash v) Hid H1) as ND. destruct G1 as (w0 & Hs0 & HT & Hf0 & -> & ->). fold T in HT, ND.
    set (n := length (w_inodes w0)) in *. set (w1 := add_fd (add_file w0 T) n) in *. set (fd := length (w_fds w)) in *.
    assert (writing w1 fd n []) as HW.
    { unfold writing, w1, fd, n. cbn. rewrite <- Hf0. split.
      - rewrite nth_error_app2, Nat.sub_diag by lia. reflexivity.
      - rewrite nth_error_app2, Nat.sub_diag by lia. reflexivity. }
    change (if compression_eqb desired AS_IS then UNCOMPRESSED else desired) with (form UNCOMPRESSED desired) in H. set (fc := form UNCOMPRESSED desired) in *.
    assert (fc <> AS_IS) as Hfc by (unfold fc, form; destruct desired; cbn; congruence).
    apply exec_bind in H. destruct H as (w2 & r2 & H2 & H).
    assert (r2 <> Err EEXIST) as NE2.
    { intros ->. destruct fc; cbn [compression_eqb] in H2; [eapply loop_write_noexist; exact H2| |congruence].
      unfold save_and_compress_fd in H2. destruct (bad_size data); [apply exec_ret_inv in H2; destruct H2; discriminate|].
      unfold start_codec in H2. destruct t as [ct|]; [destruct (codecs ct) as [cd|]|]; try (apply exec_ret_inv in H2; destruct H2; discriminate). eapply save_compress_noexist; exact H2. }
    assert (represents codecs UNCOMPRESSED data data) as Hrep by reflexivity.
    destruct (save_write_exec codecs bound HC CHUNK_LIMIT_MAX (N.le_refl _) f fuel w1 fd n UNCOMPRESSED fc t data data w2 r2 ltac:(discriminate) Hfc Hrep Hl HW H2) as (c & -> & _).
    set (w2 := wrote w1 fd n c) in *. set (F := chunk_name root id fc) in *.
    assert (T <> F) as HTF by (apply names_differ; exact Hid).
    assert (name_at w2 T = Some (NFile n)) as HT2. { unfold w2, wrote, w1. rewrite name_set_pos, name_set_content, name_add_fd, name_add_file, beq_refl. reflexivity. }
    assert (name_at w2 F = None) as HF2.
    { unfold w2, wrote, w1. rewrite name_set_pos, name_set_content, name_add_fd, name_add_file. assert (beq T F = false) as -> by (apply beq_neq; exact HTF).
      destruct Hs0 as [_ Hs0]. rewrite Hs0 by (apply subdir_not_chunk; exact Hid). apply (present_false w root id fc Hp). destruct fc; [auto|auto|congruence]. }
    assert (forall e u, exec f u (do _ <- chunk_file_unlink root id (tmp_suffix v) ;; Ret (@Err unit e)) w' r -> r = Err e) as KU.
    { intros e u X. apply exec_bind in X. destruct X as (u1 & x & _ & X). ret X. reflexivity. }
    destruct r2 as [[]|er| |].
    + apply exec_bind in H. destruct H as (w3 & r3 & H3 & H).
      assert (chunk_id_format_path root id (if compression_eqb fc COMPRESSED then cacnk else []) = F) as EF.
      { unfold F, chunk_name. destruct fc; [reflexivity|reflexivity|congruence]. }
      rewrite EF in H3. destruct (rename_exec f w2 T F w3 r3 (NFile n) HTF HT2 H3) as ((_ & S3) & _).
      destruct r3 as [[]|er| |].
      * ret H. split; [|discriminate]. intros _. rewrite clear_unfold. intros id2 I2. destruct (Cl id2 I2) as [C1 C2].
        assert (forall q, q = T \/ q <> T) as DT by (intros q; destruct (beq q T) eqn:E; [left; apply beq_eq; exact E|right; intros E2; subst q; rewrite beq_refl in E; discriminate E]).
        pose proof (rename_gone _ _ _ _ _ _ HTF HT2 H3) as GT.
        split.
        -- assert (subdir root id2 <> F) as D1 by (apply subdir_not_chunk; exact Hid).
           assert (subdir root id2 <> T) as D2 by (apply subdir_not_path; exact Hid).
           assert (subdir root id2 = subdir root id \/ subdir root id2 <> subdir root id) as [E|E].
           { destruct (beq (subdir root id2) (subdir root id)) eqn:E; [left; apply beq_eq; exact E|right; intros E2; rewrite E2, beq_refl in E; discriminate E]. }
           ++ rewrite E in *. right. rewrite S3 by (intros [?|?]; congruence). exact ND.
           ++ rewrite Hx; [exact C1|exact D1|exact E|]. intros (v2 & E2). revert E2. apply subdir_not_path. exact Hid.
        -- intros v2. set (q := chunk_id_format_path root id2 (tmp_suffix v2)). destruct (DT q) as [-> |NT]; [exact GT|].
           destruct (beq id2 id) eqn:EI.
           ++ apply beq_eq in EI. subst id2. assert (q <> F) as D1 by (apply names_differ; exact Hid). assert (q <> subdir root id) as D2 by (intros E; symmetry in E; revert E; apply subdir_not_path; exact Hid).
              rewrite S3 by (intros [?|?]; congruence). unfold w2, wrote, w1. rewrite name_set_pos, name_set_content, name_add_fd, name_add_file.
              assert (beq T q = false) as -> by (apply beq_neq; congruence). destruct Hs0 as [_ Hs0]. rewrite Hs0 by congruence. apply C2.
           ++ assert (id2 <> id) as NI by (intros ->; rewrite beq_refl in EI; discriminate EI).
              rewrite Hx; [apply C2| | |].
              ** intros E. unfold q, F, chunk_name in E. apply path_inj in E; [|exact I2|exact Hid]. destruct E; congruence.
              ** intros E. symmetry in E. revert E. apply subdir_not_path. exact I2.
              ** intros (v3 & E). apply path_inj in E; [|exact I2|exact Hid]. destruct E; congruence.
      * apply KU in H. subst r. split; [discriminate|]. intros E. injection E as ->. exfalso. eapply rename_exist; [exact HTF|exact HT2|exact H3|exact HF2].
      * ret H. split; discriminate.
      * ret H. split; discriminate.
    + apply KU in H. subst r. apply KE. congruence.
    + ret H. split; discriminate.
    + ret H. split; discriminate.
  - ret H. apply KE. congruence.
  - ret H. split; discriminate.
  - ret H. split; discriminate.
Qed.

Lemma clear_but_root w w' root : (forall q, q <> root -> name_at w' q = name_at w q) -> clear w root -> clear w' root.
Proof.
  intros E Cl. rewrite clear_unfold in *. intros id I. destruct (Cl id I) as [C1 C2]. split.
  - rewrite E; [exact C1|]. unfold subdir. intros X. apply (f_equal (@length N)) in X. rewrite app_length, firstn_length, (id_ok_format _ I) in X. cbn in X. lia.
  - intros v. rewrite E; [apply C2|]. intros X. symmetry in X. revert X. apply root_not_path. exact I.
Qed.

(** The put itself. *)
Lemma put_clear f vtd fuel w st root id p m w' st' r : st_root st = Some root -> id_ok id = true -> len p < CHUNK_LIMIT_MAX -> clear w root -> contains codecs w root m ->
  exec f w (store_put codecs vtd fuel st id UNCOMPRESSED p) w' (st', r) ->
  (st' = st \/ st' = store_mkdir_done st) /\
  match r with
  | Ok _ => m id = None /\ contains codecs w' root (update m id (Some p)) /\ clear w' root
  | Err EEXIST => m id <> None /\ contains codecs w' root m /\ clear w' root
  | _ => True
  end.
Proof.
  intros Hr Hid Hl Cl Hm H. assert (represents codecs UNCOMPRESSED p p) as Hrep by reflexivity.
  destruct (store_put_map codecs bound HC f vtd fuel w st root id UNCOMPRESSED p p m w' st' r Hr Hid Hrep Hl Hm H) as (S1 & S2 & S3).
  split; [exact S1|]. unfold store_put in H. rewrite Hr in H. cbn [pbind] in H. rewrite Hr in H.
  apply exec_bind in H. destruct H as (w1 & r1 & H1 & H).
  assert ((forall q, q <> root -> name_at w1 q = name_at w q) /\ r1 <> Err EEXIST) as [Hn NE].
  { destruct (st_mkdir_done st).
    - ret H1. split; [auto|discriminate].
    - apply exec_sys_inv in H1. destruct H1 as (w2 & r2 & Hs & H1).
      destruct (sys_mkdir _ _ _ _ _ Hs) as [(_ & -> & e & -> & F)|Q].
      + destruct e; try discriminate F; apply exec_ret_inv in H1; destruct H1 as [-> ->]; (split; [auto|discriminate]).
      + destruct (name_at w root) eqn:En; destruct Q as [-> ->]; ret H1; (split; [|discriminate]); [auto|]. intros q Nq. apply name_put_other. congruence. }
  pose proof (clear_but_root w w1 root Hn Cl) as Cl1.
  destruct r1 as [st1|e| |]; try (apply exec_ret_inv in H; destruct H as [-> E]; injection E as -> ->; first [exact I|destruct e; first [exact I|congruence]]).
  apply exec_bind in H. destruct H as (w2 & r2 & H2 & H). apply exec_ret_inv in H. destruct H as [-> E]. injection E as -> ->.
  destruct (save_clear _ _ _ _ _ _ _ _ _ _ Hid Hl Cl1 H2) as [C1 C2].
  destruct r2 as [[]|e| |]; try exact I.
  - split; [apply S2; reflexivity|]. split; [|apply C1; reflexivity]. destruct S3 as [[S3 _]|[_ S3]]; [exact S3|congruence].
  - destruct e; try exact I. destruct (C2 eq_refl) as [-> C3].
    assert (present w root id = true) as Pr.
    { unfold present in *. rewrite !Hn in C3; [exact C3| |]; intros X; symmetry in X; revert X; unfold chunk_name; apply root_not_path; exact Hid. }
    assert (m id <> None) as NN by (intros E; specialize (Hm id Hid); rewrite E in Hm; congruence).
    split; [exact NN|]. split; [|exact Cl1]. destruct S3 as [[_ S3]|[S3 _]]; [congruence|exact S3].
Qed.
End Save.
