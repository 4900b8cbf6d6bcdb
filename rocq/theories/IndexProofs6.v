(** Receiving an index piece by piece. *)
From Verif Require Import Base Chunker FeatureFlags FeatureFlagsSpec FeatureFlagsProofs Index IndexSpec IndexRun IndexProofs IndexProofs2 IndexProofs3 IndexProofs5.
Local Open Scope N_scope.

Lemma takeN_add (a b : N) (x : list N) : takeN a x ++ takeN b (dropN a x) = takeN (a + b) x.
Proof.
  unfold takeN, dropN. replace (N.to_nat (a + b)) with (N.to_nat a + N.to_nat b)%nat by lia. generalize (N.to_nat a) (N.to_nat b). clear. intros a b.
  revert x. induction a as [|a IH]; intros x; [reflexivity|]. destruct x as [|y x]; [cbn; rewrite firstn_nil; reflexivity|]. cbn. rewrite IH. reflexivity.
Qed.

Section Receive.
Variables (f mi av ma : N) (l : list (list N * N)).
Hypothesis (P : params_ok f mi av ma) (C : chunks_ok ma l) (Small : len l < 2 ^ 34).
Let data := index_image f mi av ma l.

(** [got] bytes have arrived, [pre] was read. *)
Record iinv (got : N) (eof : bool) (pre post : list (list N * N)) (s : idx) : Prop := {
  i_mode : x_mode s = CA_INDEX_INCREMENTAL_READ;
  i_raw : x_raw s = got; i_got : got <= len data; i_data : x_data s = takeN got data;
  i_eof : x_eof s = eof; i_split : l = pre ++ post; i_room : 104 + 40 * len l <= x_limit s;
  i_eofgot : eof = true -> got = len data;
  i_prev : x_prev s = blob_size_of pre;
  i_state : (x_start s = 0 /\ x_cooked s = 0 /\ x_fpos s = 0 /\ pre = [] /\ (x_open s = false -> got = 0)) \/
    (x_open s = true /\ x_start s = 64 /\ x_max s = ma /\ 64 <= got /\ x_cooked s = 64 + 40 * len pre /\ x_fpos s = 64 + 40 * len pre)
}.

Lemma dlen : len data = 104 + 40 * len l. Proof. apply data_len. exact C. Qed.

Lemma enough s n : x_mode s = CA_INDEX_INCREMENTAL_READ -> x_eof s = false -> x_cooked s + n < two64 ->
  index_enough_data n s = (Ok (x_cooked s + n <=? x_raw s), s).
Proof.
  intros M E L. unfold index_enough_data. rewrite bind_get, M, E. cbn [is_mode_read is_mode_iread negb]. rewrite N.mod_small by exact L.
  replace (x_cooked s + n <? x_cooked s) with false by lia. unfold ret. do 2 f_equal. lia.
Qed.
Lemma enough_eof s n : x_mode s = CA_INDEX_INCREMENTAL_READ -> x_eof s = true -> index_enough_data n s = (Ok true, s).
Proof. intros M E. unfold index_enough_data. rewrite bind_get, M, E. reflexivity. Qed.

(** Opening: reads the head as soon as it is there. *)
Lemma iopen got eof pre post s : iinv got eof pre post s ->
  exists s', index_open s = (Ok tt, s') /\ iinv got eof pre post s' /\ (64 <= got -> x_start s' = 64) /\ x_open s' = true /\ x_limit s' = x_limit s.
Proof.
  intros I. destruct (i_state _ _ _ _ _ I) as [(S1 & S2 & S3 & S4 & S5)|(S1 & S2 & S3 & S4 & S5 & S6)].
  2: { exists s. rewrite open_noop; [|exact S1|rewrite S2; discriminate]. repeat split; try assumption; try apply I; try (intros; assumption). }
  set (s1 := upd_open true (x_temp s || negb (x_open s)) s).
  assert (O : index_open_fd s = (Ok tt, s1)).
  { unfold index_open_fd. rewrite bind_get. pose proof (i_mode _ _ _ _ _ I) as M. pose proof (i_data _ _ _ _ _ I) as D. unfold s1.
    destruct s as [m0 f0 a b c d e gg h i j k lo n o p q r]. cbn in *. subst. destruct lo.
    - rewrite orb_false_r. reflexivity.
    - cbn. unfold modS, upd_file, upd_open. rewrite orb_true_r. rewrite (S5 eq_refl). unfold takeN. rewrite firstn_O. reflexivity. }
  assert (I1 : iinv got eof pre post s1 /\ x_open s1 = true /\ x_limit s1 = x_limit s).
  { unfold s1. destruct I as [J1 J2 J3 J4 J5 J6 J7 J8 J9 J10]. destruct s; cbn in *. repeat split; cbn; try assumption. left. repeat split; try assumption. discriminate. }
  destruct I1 as (I1 & Op1 & Lm1). assert (T : x_start s1 = 0 /\ x_cooked s1 = 0 /\ x_fpos s1 = 0) by (unfold s1; destruct s; cbn in *; auto). destruct T as (T1 & T2 & T3).
  assert (Fin : forall s2, index_read_head s1 = (Ok tt, s2) \/ index_read_head s1 = (Err EAGAIN, s2) -> is_write_mode (x_mode s2) = false -> index_open s = (Ok tt, s2)).
  { intros s2 H M2. unfold index_open. rewrite (bind_ok _ _ _ _ _ O). unfold bindM. destruct H as [-> | ->]; unfold index_write_head; rewrite bind_get, M2; reflexivity. }
  pose proof (i_mode _ _ _ _ _ I1) as M1.
  destruct (N.leb_spec 64 got) as [G|G].
  - assert (En : index_enough_data 64 s1 = (Ok true, s1)).
    { destruct (x_eof s1) eqn:E; [apply enough_eof; assumption|]. rewrite enough; [|assumption..|rewrite T2; reflexivity]. rewrite T2, (i_raw _ _ _ _ _ I1). replace (0 + 64 <=? got) with true by lia. reflexivity. }
    pose proof (read_head_eq s1 ltac:(rewrite M1; reflexivity) T1 T2 En) as RH. cbv zeta in RH.
    assert (Hd : file_pread (x_data s1) (x_fpos s1) 64 = head_bytes f mi av ma).
    { rewrite T3, (i_data _ _ _ _ _ I1). unfold file_pread. rewrite dropN_0, takeN_takeN. replace (N.min 64 got) with 64 by lia.
      unfold data. rewrite image_split. apply takeN_app_exact. reflexivity. }
    rewrite Hd, T3, head_bytes_len in RH.
    assert (Hc : head_check (head_bytes f mi av ma) = Ok (f, mi, av, ma)).
    { apply head_check_spec; [unfold head_bytes, le64; rewrite !bytes_ok_app, !le_enc_ok; reflexivity|auto]. }
    rewrite Hc in RH. eexists. split; [apply Fin; [left; exact RH|]|].
    + destruct s1; cbn in *. rewrite M1. reflexivity.
    + destruct I1 as [J1 J2 J3 J4 J5 J6 J7 J8 J9 J10]. clear RH Fin O. clearbody s1. destruct s1; cbn in *. subst pre.
      split; [|repeat split; assumption]. constructor; cbn; try assumption. right. repeat split; try assumption.
  - destruct eof eqn:Ee.
    + exfalso. pose proof (i_eofgot _ _ _ _ _ I eq_refl). pose proof dlen. lia.
    + exists s1. split; [|split; [exact I1|split; [lia|split; [exact Op1|exact Lm1]]]]. apply Fin; [right|rewrite M1; reflexivity].
      unfold index_read_head. rewrite bind_get, M1, T1, T2. cbn [is_read_mode negb]. rewrite N.eqb_refl. cbn [negb].
      assert (En : index_enough_data 64 s1 = (Ok false, s1)).
      { rewrite enough; [|exact M1|apply (i_eof _ _ _ _ _ I1)|rewrite T2; reflexivity]. rewrite T2, (i_raw _ _ _ _ _ I1). replace (0 + 64 <=? got) with false by lia. reflexivity. }
      rewrite (bind_ok _ _ _ _ _ En). reflexivity.
Qed.

(** The entry at the reading position, once it has arrived. *)
Lemma arrived got k n : k + n <= got -> file_pread (takeN got data) k n = file_pread data k n.
Proof.
  intros H. unfold file_pread. unfold takeN, dropN. rewrite skipn_firstn_comm, firstn_firstn. f_equal. lia.
Qed.

(** One step of the receiver; [more] is what is still to come. *)
Lemma ipush got pre post s d : iinv got false pre post s -> d <> [] -> takeN (len d) (dropN got data) = d ->
  exists s', istep (IPush d) s = (Ok None, s') /\ iinv (got + len d) false pre post s'.
Proof.
  intros I Hd Hp. destruct (iopen _ _ _ _ _ I) as (s1 & O & I1 & Hst & Ho & Hl). pose proof dlen as DL.
  assert (Hlen : len d <> 0) by (intros X; apply len_zero_nil in X; contradiction).
  assert (Hb : got + len d <= len data). { apply (f_equal (@len N)) in Hp. rewrite len_takeN, len_dropN in Hp. lia. }
  change (2 ^ 34) with 17179869184 in Small.
  cbn [istep]. unfold index_incremental_write.
  assert (X : forall A B D (m : op A) (h : A -> op B) (k : B -> op D) s, bindM (bindM m h) k s = bindM m (fun a => bindM (h a) k) s).
  { intros. unfold bindM. destruct (m s0) as [[| | |] ?]; reflexivity. }
  rewrite X, bind_get, X, bind_guard. replace (len d =? 0) with false by lia. cbn [negb]. rewrite (i_mode _ _ _ _ _ I), X, bind_guard. cbn [is_mode_iread].
  rewrite (i_eof _ _ _ _ _ I), X, bind_guard. cbn [negb]. rewrite X, (bind_ok _ _ _ _ _ O), X, bind_get, X, bind_guard. rewrite (i_raw _ _ _ _ _ I1).
  rewrite N.mod_small by (unfold two64; lia). replace (got + len d <? got) with false by lia. cbn [negb].
  pose proof (i_room _ _ _ _ _ I1) as Rm. rewrite takeN_all by lia.
  rewrite X, bind_mod, X, bind_guard. rewrite N.eqb_refl, bind_mod. unfold ret. eexists. split; [reflexivity|].
  assert (Pw : file_pwrite (x_data s1) d got = takeN (got + len d) data).
  { rewrite (i_data _ _ _ _ _ I1). assert (G : got = len (takeN got data)) by (rewrite len_takeN; lia). rewrite G at 2. rewrite file_pwrite_end.
    rewrite <- Hp at 1. apply takeN_add. }
  cbn beta. rewrite ?(i_raw _ _ _ _ _ I1). rewrite Pw. destruct I1 as [J1 J2 J3 J4 J5 J6 J7 J8 J9 J10]. clear O Pw. destruct s1; cbn in *.
  constructor; cbn; try assumption; try lia; try reflexivity; try discriminate.
  destruct J10 as [(K1 & K2 & K3 & K4 & K5)|(K1 & K2 & K3 & K4 & K5 & K6)]; [left|right]; repeat split; try assumption; [congruence|lia].
Qed.

Lemma ieof pre post s : iinv (len data) false pre post s ->
  exists s', istep IEof s = (Ok None, s') /\ iinv (len data) true pre post s'.
Proof.
  intros I. destruct (iopen _ _ _ _ _ I) as (s1 & O & I1 & Hst & Ho & Hl).
  cbn [istep]. unfold index_incremental_eof.
  assert (X : forall A B D (m : op A) (h : A -> op B) (k : B -> op D) s, bindM (bindM m h) k s = bindM m (fun a => bindM (h a) k) s).
  { intros. unfold bindM. destruct (m s0) as [[| | |] ?]; reflexivity. }
  rewrite X, bind_get, X, bind_guard, (i_mode _ _ _ _ _ I). cbn [is_mode_iread]. rewrite (i_eof _ _ _ _ _ I), X, bind_guard. cbn [negb].
  rewrite X, (bind_ok _ _ _ _ _ O), bind_mod. unfold ret. eexists. split; [reflexivity|].
  destruct I1 as [J1 J2 J3 J4 J5 J6 J7 J8 J9 J10]. clear O. destruct s1; cbn in *. constructor; cbn; auto.
Qed.

Lemma iread got eof pre post s : iinv got eof pre post s -> got < 41 \/ 64 <= got ->
  (eof = false /\ exists s', istep IRead s = (Err EAGAIN, s') /\ iinv got eof pre post s' /\ got < 64 + 40 * len pre + 41) \/
  (exists id sz post' s', post = (id, sz) :: post' /\ istep IRead s = (Ok (Some (id, blob_size_of pre + sz, sz)), s') /\ iinv got eof (pre ++ [(id, sz)]) post' s') \/
  (eof = true /\ post = [] /\ exists s', istep IRead s = (Ok None, s')).
Proof.
  intros I Hg. destruct (iopen _ _ _ _ _ I) as (s1 & O & I1 & Hst & Ho & Hl). pose proof dlen as DL. change (2 ^ 34) with 17179869184 in Small.
  assert (Lk : len pre + len post = len l) by (rewrite (i_split _ _ _ _ _ I), len_app; reflexivity).
  assert (E0 : istep IRead s = index_read_chunk s1).
  { destruct (i_state _ _ _ _ _ I1) as [(S1 & S2 & S3 & S4 & S5)|(S1 & S2 & _)].
    - cbn [istep]. unfold index_read_chunk. rewrite (bind_ok _ _ _ _ _ O).
      assert (O2 : index_open s1 = (Ok tt, s1)).
      { destruct (iopen _ _ _ _ _ I1) as (s2 & O2 & I2 & H2 & _). rewrite O2. f_equal.
        (* the head is not there yet, or it would have been read *)
        destruct (N.leb_spec 64 got) as [G|G]; [rewrite (Hst G) in S1; discriminate|].
        revert O2. unfold index_open. assert (Of : index_open_fd s1 = (Ok tt, s1)) by (unfold index_open_fd; rewrite bind_get, Ho; reflexivity).
        rewrite (bind_ok _ _ _ _ _ Of). unfold bindM.
        assert (Rh : index_read_head s1 = (Err EAGAIN, s1)).
        { unfold index_read_head. rewrite bind_get, (i_mode _ _ _ _ _ I1), S1, S2. cbn [is_read_mode negb]. rewrite N.eqb_refl. cbn [negb].
          assert (En : index_enough_data 64 s1 = (Ok false, s1)).
          { rewrite enough; [rewrite S2, (i_raw _ _ _ _ _ I1); replace (0 + 64 <=? got) with false by lia; reflexivity|apply I1| |rewrite S2; reflexivity].
            destruct (x_eof s1) eqn:Ee; [|reflexivity]. rewrite (i_eof _ _ _ _ _ I1) in Ee. pose proof (i_eofgot _ _ _ _ _ I1 Ee). lia. }
          rewrite (bind_ok _ _ _ _ _ En). reflexivity. }
        rewrite Rh. unfold index_write_head. rewrite bind_get, (i_mode _ _ _ _ _ I1). cbn [is_write_mode negb]. unfold ret. congruence. }
      rewrite (bind_ok _ _ _ _ _ O2). reflexivity.
    - cbn [istep]. apply read_chunk_open; [exact O|]. apply open_noop; [exact S1|rewrite S2; discriminate]. }
  rewrite E0. pose proof (i_mode _ _ _ _ _ I1) as M1.
  destruct (i_state _ _ _ _ _ I1) as [(S1 & S2 & S3 & S4 & S5)|(S1 & S2 & S3 & S4 & S5 & S6)].
  - (* no head yet *)
    destruct (N.leb_spec 64 got) as [G|G]; [rewrite (Hst G) in S1; discriminate|].
    assert (Ee : eof = false) by (destruct eof; [pose proof (i_eofgot _ _ _ _ _ I eq_refl); lia|reflexivity]). subst eof.
    left. split; [reflexivity|]. exists s1.
    assert (Of : index_open s1 = (Ok tt, s1)).
    { unfold index_open. assert (Of : index_open_fd s1 = (Ok tt, s1)) by (unfold index_open_fd; rewrite bind_get, Ho; reflexivity).
      rewrite (bind_ok _ _ _ _ _ Of). unfold bindM.
      assert (Rh : index_read_head s1 = (Err EAGAIN, s1)).
      { unfold index_read_head. rewrite bind_get, M1, S1, S2. cbn [is_read_mode negb]. rewrite N.eqb_refl. cbn [negb].
        assert (En : index_enough_data 64 s1 = (Ok false, s1)).
        { rewrite enough; [rewrite S2, (i_raw _ _ _ _ _ I1); replace (0 + 64 <=? got) with false by lia; reflexivity|apply I1|apply I1|rewrite S2; reflexivity]. }
        rewrite (bind_ok _ _ _ _ _ En). reflexivity. }
      rewrite Rh. unfold index_write_head. rewrite bind_get, M1. reflexivity. }
    split; [|split; [exact I1|lia]].
    unfold index_read_chunk. rewrite (bind_ok _ _ _ _ _ Of), bind_get, bind_guard, M1. cbn [is_read_mode].
    assert (En : index_enough_data 41 s1 = (Ok false, s1)).
    { rewrite enough; [rewrite S2, (i_raw _ _ _ _ _ I1); replace (0 + 41 <=? got) with false by lia; reflexivity|apply I1|apply I1|rewrite S2; reflexivity]. }
    rewrite (bind_ok _ _ _ _ _ En). reflexivity.
  - assert (Hen : eof = true \/ 64 + 40 * len pre + 41 <= got \/ (eof = false /\ got < 64 + 40 * len pre + 41)) by (destruct eof; [auto|lia]).
    assert (Dec : (eof = false /\ got < 64 + 40 * len pre + 41) \/ index_enough_data 41 s1 = (Ok true, s1)).
    { destruct Hen as [Hen|[Hen|Hen]]; [right; apply enough_eof; [exact M1|rewrite (i_eof _ _ _ _ _ I1); exact Hen]| |left; exact Hen].
      destruct (x_eof s1) eqn:Ee; [right; apply enough_eof; assumption|]. right. rewrite enough; [|assumption..|rewrite S5; unfold two64; lia].
      rewrite S5, (i_raw _ _ _ _ _ I1). replace (64 + 40 * len pre + 41 <=? got) with true by lia. reflexivity. }
    destruct Dec as [[Ee Hsmall]|En].
    { left. split; [exact Ee|]. exists s1. split; [|split; [exact I1|lia]].
      unfold index_read_chunk. rewrite (bind_ok _ _ _ _ _ (open_noop s1 S1 ltac:(rewrite S2; discriminate))), bind_get, bind_guard, M1. cbn [is_read_mode].
      assert (En : index_enough_data 41 s1 = (Ok false, s1)).
      { rewrite enough; [rewrite S5, (i_raw _ _ _ _ _ I1); replace (64 + 40 * len pre + 41 <=? got) with false by lia; reflexivity|apply I1|rewrite (i_eof _ _ _ _ _ I1); exact Ee|rewrite S5; unfold two64; lia]. }
      rewrite (bind_ok _ _ _ _ _ En). reflexivity. }
    right. rewrite read_chunk_eq; [|exact S1|rewrite S2; discriminate|rewrite M1; reflexivity|exact En]. cbv zeta.
    rewrite S6, (i_data _ _ _ _ _ I1).
    assert (Hk : 64 + 40 * len pre + 40 <= got).
    { destruct Hen as [Hen|[Hen|[Hen Hen']]]; [rewrite (i_eofgot _ _ _ _ _ I Hen); lia|lia|].
      rewrite enough in En; [|exact M1|rewrite (i_eof _ _ _ _ _ I1); exact Hen|rewrite S5; unfold two64; lia]. rewrite S5, (i_raw _ _ _ _ _ I1) in En.
      injection En. lia. }
    rewrite arrived by exact Hk.
    destruct post as [|[id sz] post'].
    + (* the tail *)
      change (len (@nil (list N * N))) with 0 in Lk. assert (Lp : len pre = len l) by lia.
      assert (B : file_pread data (64 + 40 * len pre) 40 = tail_of (16 + 40 * (len l + 1))).
      { unfold file_pread. rewrite Lp. unfold data. rewrite (tail_at _ _ _ _ _ C). apply takeN_all. rewrite tail_of_len. lia. }
      rewrite B. rewrite tail_of_len. rewrite N.eqb_refl.
      right. 
      assert (Got : got = len data).
      { destruct Hen as [Hen|[Hen|[Hen Hen']]]; [apply (i_eofgot _ _ _ _ _ I Hen)|pose proof (i_got _ _ _ _ _ I); lia|].
        rewrite enough in En; [|exact M1|rewrite (i_eof _ _ _ _ _ I1); exact Hen|rewrite S5; unfold two64; lia]. rewrite S5, (i_raw _ _ _ _ _ I1) in En. injection En. lia. }
      assert (Ee : eof = true).
      { destruct Hen as [Hen|[Hen|[Hen Hen']]]; [exact Hen|lia|].
        rewrite enough in En; [|exact M1|rewrite (i_eof _ _ _ _ _ I1); exact Hen|rewrite S5; unfold two64; lia]. rewrite S5, (i_raw _ _ _ _ _ I1) in En. injection En. lia. }
      split; [exact Ee|]. split; [reflexivity|]. unfold entry_result.
      assert (T : tail_test (tail_of (16 + 40 * (len l + 1))) (x_cooked s1 - x_start s1 + 56) = true).
      { rewrite S5, S2, Lp. replace (64 + 40 * len l - 64 + 56) with (16 + 40 * (len l + 1)) by lia.
        apply tail_test_spec; [reflexivity| |unfold two64; split; [lia|reflexivity]]. unfold tail_of. rewrite !bytes_ok_app. unfold le64. rewrite !le_enc_ok. reflexivity. }
      rewrite T, S6, (i_data _ _ _ _ _ I1), Got, takeN_all by lia.
      replace (len (file_pread data (64 + 40 * len pre + 40) 1)) with 0 by (unfold file_pread; rewrite len_takeN, len_dropN; lia). rewrite N.eqb_refl. eauto.
    + left. destruct (entry_bytes f mi av ma l C Small pre id sz post' (i_split _ _ _ _ _ I)) as (rest & D & I1' & I2 & I3 & _).
      pose proof (blob_lt ma l C) as BL. fold data in D.
      assert (L2 : blob_size_of pre + sz < two64) by (unfold UINT64_MAX, two64 in *; lia).
      assert (B : file_pread data (64 + 40 * len pre) 40 = le64 (blob_size_of pre + sz) ++ id).
      { unfold file_pread. rewrite D, app_assoc. apply takeN_app_exact. rewrite len_app, le64_len. unfold len. lia. }
      rewrite B. replace (len (le64 (blob_size_of pre + sz) ++ id) =? 40) with true by (rewrite len_app, le64_len; unfold len; lia).
      assert (T : forall n, tail_test (le64 (blob_size_of pre + sz) ++ id) n = false).
      { intros n. unfold tail_test. rewrite rd64_le64 by exact L2. replace (blob_size_of pre + sz =? 0) with false by lia. rewrite !andb_false_r. reflexivity. }
      unfold entry_result. rewrite T, rd64_le64, (i_prev _ _ _ _ _ I1), S3 by exact L2.
      replace (blob_size_of pre =? UINT64_MAX) with false by (unfold UINT64_MAX in *; lia). cbn [orb].
      replace (blob_size_of pre <? blob_size_of pre + sz) with true by lia. cbn [negb].
      replace (blob_size_of pre + sz - blob_size_of pre) with sz by lia. replace (sz <=? ma) with true by lia. cbn [negb].
      rewrite dropN_app_exact by apply le64_len. exists id, sz, post'. eexists. split; [reflexivity|]. split; [reflexivity|].
      destruct I1 as [J1 J2 J3 J4 J5 J6 J7 J8 J9 J10]. clear E0 En O. destruct s1; cbn in *. subst x_start x_cooked x_fpos x_max.
      assert (Lp1 : len (pre ++ [(id, sz)]) = len pre + 1) by (rewrite len_app; reflexivity).
      constructor; cbn; try assumption.
      * rewrite <- app_assoc. exact J6.
      * rewrite blob_size_app. cbn [blob_size_of fold_right snd]. lia.
      * right. rewrite Lp1. repeat split; try assumption; lia.
Qed.

Lemma irun_ok h : forall got eof pre post s tr s' rest, iinv got eof pre post s -> irun h s = (tr, s') ->
  (eof = true -> Forall (fun o => o = IRead) h) -> (eof = false -> eof_last h) ->
  Forall (fun o => o <> IPush []) h -> dropN got data = pushes h ++ rest -> (In IEof h -> rest = []) -> no_early_read got h ->
  ~ In (IRead, Ok None) tr ->
  Forall (fun x => (exists v, snd x = Ok v) \/ x = (IRead, Err EAGAIN)) tr /\
  exists got' eof' mid post', iinv got' eof' (pre ++ mid) post' s' /\ post = mid ++ post' /\ itrace_read tr = entries_of (blob_size_of pre) mid /\
    (eof = true \/ In IEof h -> eof' = true).
Proof.
  induction h as [|o h IH]; intros got eof pre post s tr s' rest I R He1 He2 Hne Hp Hr Hn Hend; cbn [irun] in R.
  - inversion R; subst. split; [constructor|]. exists got, eof, [], post. rewrite app_nil_r. split; [exact I|]. split; [reflexivity|]. split; [reflexivity|]. intros [H|[]]; exact H.
  - destruct (istep o s) as [r s1] eqn:S. destruct (irun h s1) as [tr1 s2] eqn:R1. inversion R; subst tr s2. clear R.
    inversion Hne as [|? ? Hne1 Hne2]; subst.
    assert (Hend1 : ~ In (IRead, Ok None) tr1) by (intros X; apply Hend; right; exact X).
    destruct o as [d| |].
    + assert (eof = false) by (destruct eof; [specialize (He1 eq_refl); inversion He1; discriminate|reflexivity]). subst eof.
      cbn [pushes] in Hp. destruct (ipush got pre post s d I) as (s1' & E1 & I1); [congruence|rewrite Hp, <- app_assoc; apply takeN_app_exact; reflexivity|].
      assert (r = Ok None /\ s1' = s1) as [-> ->] by (split; congruence).
      destruct (IH _ _ _ _ _ _ _ rest I1 R1) as (F & got' & eof' & mid & post' & K1 & K2 & K3 & K4).
      * discriminate. * intros _. exact (He2 eq_refl). * exact Hne2.
      * rewrite N.add_comm, <- dropN_dropN, Hp, <- app_assoc, dropN_app_exact; reflexivity. * intros X. apply Hr. right. exact X. * exact Hn. * exact Hend1.
      * split; [constructor; [left; eexists; reflexivity|exact F]|]. exists got', eof', mid, post'. cbn [itrace_read]. repeat (split; [assumption|]). intros [X|[X|X]]; [discriminate|discriminate|]. apply K4. auto.
    + assert (eof = false) by (destruct eof; [specialize (He1 eq_refl); inversion He1; discriminate|reflexivity]). subst eof.
      specialize (He2 eq_refl). cbn [eof_last] in He2. cbn [pushes] in Hp.
      assert (Ph : pushes h = []). { clear -He2. induction He2 as [|x h -> H IH]; [reflexivity|exact IH]. }
      rewrite Ph, (Hr (or_introl eq_refl)) in Hp. assert (G : got = len data).
      { pose proof (i_got _ _ _ _ _ I). apply (f_equal (@len N)) in Hp. rewrite len_dropN in Hp. change (len ([] ++ [])) with 0 in Hp. lia. }
      rewrite G in *. destruct (ieof pre post s I) as (s1' & E1 & I1). assert (r = Ok None /\ s1' = s1) as [-> ->] by (split; congruence).
      destruct (IH _ _ _ _ _ _ _ [] I1 R1) as (F & got' & eof' & mid & post' & K1 & K2 & K3 & K4).
      * intros _. exact He2. * discriminate. * exact Hne2. * rewrite Ph. exact Hp. * reflexivity. * exact Hn. * exact Hend1.
      * split; [constructor; [left; eexists; reflexivity|exact F]|]. exists got', eof', mid, post'. cbn [itrace_read]. repeat (split; [assumption|]). intros _. apply K4. auto.
    + cbn [no_early_read] in Hn. destruct Hn as [Hn1 Hn2]. cbn [pushes] in Hp.
      assert (Hr' : In IEof h -> rest = []) by (intros X; apply Hr; right; exact X).
      assert (He1' : eof = true -> Forall (fun o => o = IRead) h) by (intros X; specialize (He1 X); inversion He1; assumption).
      destruct (iread got eof pre post s I Hn1) as [(Ee & s1' & E1 & I1 & _)|[(id & sz & post1 & s1' & Ep & E1 & I1)|(Ee & Ep & s1' & E1)]].
      * assert (r = Err EAGAIN /\ s1' = s1) as [-> ->] by (split; congruence).
        destruct (IH _ _ _ _ _ _ _ rest I1 R1 He1' He2 Hne2 Hp Hr' Hn2 Hend1) as (F & got' & eof' & mid & post' & K1 & K2 & K3 & K4).
        split; [constructor; [right; reflexivity|exact F]|]. exists got', eof', mid, post'. cbn [itrace_read]. repeat (split; [assumption|]). intros [X|[X|X]]; [congruence|discriminate|]. apply K4. auto.
      * assert (r = Ok (Some (id, blob_size_of pre + sz, sz)) /\ s1' = s1) as [-> ->] by (split; congruence).
        destruct (IH _ _ _ _ _ _ _ rest I1 R1 He1' He2 Hne2 Hp Hr' Hn2 Hend1) as (F & got' & eof' & mid & post' & K1 & K2 & K3 & K4).
        split; [constructor; [left; eexists; reflexivity|exact F]|]. exists got', eof', ((id, sz) :: mid), post'. cbn [itrace_read entries_of].
        split; [rewrite <- app_assoc in K1; exact K1|]. split; [rewrite Ep, K2; reflexivity|]. split.
        { rewrite K3, blob_size_app. cbn [blob_size_of fold_right snd]. rewrite N.add_0_r. reflexivity. }
        intros [X|[X|X]]; [apply K4; auto|discriminate|]. apply K4. auto.
      * exfalso. apply Hend. left. f_equal. congruence.
Qed.

Lemma iinv_new fin lim : 104 + 40 * len l <= lim -> iinv 0 false [] l (index_new CA_INDEX_INCREMENTAL_READ fin lim).
Proof. intros H. constructor; cbn; try reflexivity; try discriminate; auto; try lia. left. repeat split. Qed.

Lemma entries_of_app off a b : entries_of off (a ++ b) = entries_of off a ++ entries_of (off + blob_size_of a) b.
Proof.
  clear. revert off. induction a as [|[id sz] a IH]; intros off; cbn [app entries_of blob_size_of fold_right snd]; [rewrite N.add_0_r; reflexivity|].
  fold (blob_size_of a). rewrite IH. do 3 f_equal. lia.
Qed.

Lemma receive_ok fin lim h tr s' rest : 104 + 40 * len l <= lim -> irun h (index_new CA_INDEX_INCREMENTAL_READ fin lim) = (tr, s') ->
  Forall (fun o => o <> IPush []) h -> data = pushes h ++ rest -> eof_last h -> (In IEof h -> rest = []) -> no_early_read 0 h ->
  ~ In (IRead, Ok None) tr ->
  Forall (fun x => (exists v, snd x = Ok v) \/ x = (IRead, Err EAGAIN)) tr /\
  exists later, entries_of 0 l = itrace_read tr ++ later /\ (In IEof h -> fst (istep IRead s') = Ok (hd_error later)).
Proof.
  intros Hl R Hne Hp He Hr Hn Hend.
  destruct (irun_ok h 0 false [] l _ tr s' rest (iinv_new fin lim Hl) R) as (F & got' & eof' & mid & post' & K1 & K2 & K3 & K4); try assumption; [discriminate|intros _; exact He|].
  split; [exact F|]. exists (entries_of (blob_size_of mid) post'). split; [rewrite K2, entries_of_app, K3; reflexivity|].
  intros X. specialize (K4 (or_intror X)). subst eof'.
  assert (G : 64 <= got') by (rewrite (i_eofgot _ _ _ _ _ K1 eq_refl), dlen; lia).
  destruct (iread got' true _ post' s' K1 (or_intror G)) as [(Ee & _)|[(id & sz & post1 & s1' & Ep & E1 & I1)|(Ee & Ep & s1' & E1)]]; [discriminate| |].
  - rewrite E1, Ep. reflexivity.
  - rewrite E1, Ep. reflexivity.
Qed.
End Receive.
