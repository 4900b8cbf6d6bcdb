(** Reading out of order: getters, positions, seeking. *)
From Verif Require Import Base Chunker FeatureFlags FeatureFlagsSpec FeatureFlagsProofs Index IndexSpec IndexRun IndexProofs IndexProofs2 IndexProofs3.
Local Open Scope N_scope.

(** A reader of a complete index, wherever it is positioned and whatever calls it has seen. *)
Record attached (f mi av ma : N) (l : list (list N * N)) (s : idx) : Prop := {
  a_open : x_open s = true; a_start : x_start s = 64; a_mode : x_mode s = CA_INDEX_READ;
  a_flags : x_flags s = f; a_min : x_min s = mi; a_avg : x_avg s = av; a_max : x_max s = ma;
  a_data : x_data s = index_image f mi av ma l;
  a_blob : x_blob s = UINT64_MAX \/ x_blob s = blob_size_of l
}.

Lemma opened_attached f mi av ma l lim : attached f mi av ma l (opened f mi av ma (index_image f mi av ma l) lim).
Proof. constructor; cbn; auto. Qed.

Lemma last_cases {A} (l : list A) : l = [] \/ exists pre x, l = pre ++ [x].
Proof. destruct l as [|x l]; [auto|]. right. destruct (@exists_last _ (x :: l)) as (pre & y & E); [discriminate|]. eauto. Qed.

Section Attached.
Variables (f mi av ma : N) (l : list (list N * N)).
Hypothesis (P : params_ok f mi av ma) (C : chunks_ok ma l) (Small : len l < 2 ^ 34).
Let data := index_image f mi av ma l.

Lemma data_len : len data = 104 + 40 * len l.
Proof. apply image_len. apply C. Qed.

Lemma att_open s : attached f mi av ma l s -> index_open s = (Ok tt, s).
Proof. intros A. apply open_noop; [apply A|]. rewrite (a_start _ _ _ _ _ _ A). discriminate. Qed.

Lemma att_read_head s : attached f mi av ma l s -> index_read_head s = (Ok tt, s).
Proof. intros A. unfold index_read_head. rewrite bind_get, (a_mode _ _ _ _ _ _ A), (a_start _ _ _ _ _ _ A). reflexivity. Qed.

Lemma att_index_size s : attached f mi av ma l s -> index_get_index_size s = (Ok (len data), s).
Proof.
  intros A. unfold index_get_index_size. rewrite (bind_ok _ _ _ _ _ (att_open s A)), (bind_ok _ _ _ _ _ (att_read_head s A)), bind_get.
  rewrite (a_mode _ _ _ _ _ _ A), bind_ret. unfold metadata_size. rewrite (a_start _ _ _ _ _ _ A), (a_data _ _ _ _ _ _ A). fold data.
  rewrite !bind_guard, data_len.
  replace (104 + 40 * len l <? 64 + 40) with false by lia. cbn [negb].
  replace ((104 + 40 * len l - (64 + 40)) mod 40) with 0. 2: { replace (104 + 40 * len l - (64 + 40)) with (len l * 40) by lia. rewrite N.mod_mul by discriminate. reflexivity. }
  reflexivity.
Qed.

Lemma att_total s : attached f mi av ma l s -> index_get_total_chunks s = (Ok (len l), s).
Proof.
  intros A. unfold index_get_total_chunks. rewrite (bind_ok _ _ _ _ _ (att_index_size s A)), bind_get. unfold metadata_size, ret.
  rewrite (a_start _ _ _ _ _ _ A), data_len. replace (104 + 40 * len l - (64 + 40)) with (len l * 40) by lia. rewrite N.div_mul by discriminate. reflexivity.
Qed.

Lemma att_available s : attached f mi av ma l s -> index_get_available_chunks s = (Ok (len l), s).
Proof.
  intros A. unfold index_get_available_chunks. rewrite (bind_ok _ _ _ _ _ (att_read_head s A)), bind_get. unfold metadata_size.
  rewrite (a_start _ _ _ _ _ _ A), (a_mode _ _ _ _ _ _ A), (a_data _ _ _ _ _ _ A). fold data. rewrite !bind_guard. cbn [is_read_mode is_mode_read orb andb].
  change (64 =? 0) with false. cbn [negb]. rewrite data_len. replace (104 + 40 * len l <? 64 + 40) with false by lia.
  replace (104 + 40 * len l - (64 + 40)) with (len l * 40) by lia. rewrite N.mod_mul, N.div_mul by discriminate. reflexivity.
Qed.

Lemma blob_lt : blob_size_of l < UINT64_MAX. Proof. apply C. Qed.

(** The bytes of entry number [k]. *)
Lemma entry_bytes pre id sz post : l = pre ++ (id, sz) :: post ->
  exists rest, dropN (64 + 40 * len pre) data = le64 (blob_size_of pre + sz) ++ id ++ rest /\
    length id = 32%nat /\ 0 < sz <= ma /\ blob_size_of pre + sz <= blob_size_of l /\
    rest = image_entries (blob_size_of pre + sz) post ++ tail_of (16 + 40 * (len l + 1)).
Proof.
  intros El. unfold data. rewrite image_split. destruct C as [C1 C2]. rewrite El in C1. apply Forall_app in C1 as [C1 C1']. inversion C1' as [|? ? (C3 & C4 & C5) C6]; subst x l0.
  cbn [fst snd] in *.
  assert (X : image_entries 0 l = image_entries 0 pre ++ le64 (blob_size_of pre + sz) ++ id ++ image_entries (blob_size_of pre + sz) post).
  { rewrite El, image_entries_app. cbn [image_entries]. rewrite N.add_0_l. reflexivity. }
  exists (image_entries (blob_size_of pre + sz) post ++ tail_of (16 + 40 * (len l + 1))). split.
  - rewrite X, <- !app_assoc. rewrite app_assoc. apply dropN_app_exact. rewrite len_app, head_bytes_len, (image_entries_len 0 pre) by (apply (chunk_ok_len ma), C1). reflexivity.
  - split; [exact C3|]. split; [exact C5|]. split; [|reflexivity]. rewrite El, blob_size_app. cbn [blob_size_of fold_right snd]. fold (blob_size_of post). lia.
Qed.

Lemma tail_at : dropN (64 + 40 * len l) data = tail_of (16 + 40 * (len l + 1)).
Proof.
  unfold data. rewrite image_split, app_assoc. apply dropN_app_exact. rewrite len_app, head_bytes_len, (image_entries_len 0 l) by (apply (chunk_ok_len ma), C). reflexivity.
Qed.

Lemma tail_size_ok : 16 + 40 * (len l + 1) + 48 < two64.
Proof. change (2 ^ 34) with 17179869184 in Small. unfold two64. lia. Qed.

Lemma read_tail_bytes (pfx : list N) : len pfx = 40 ->
  let b := pfx ++ tail_of (16 + 40 * (len l + 1)) in
  rd64 (dropN (40 + 8 * 4) b) = CA_FORMAT_TABLE_TAIL_MARKER /\ rd64 (dropN (40 + 8 * 2) b) = 48 /\ rd64 (dropN (40 + 8 * 3) b) = 16 + 40 * (len l + 1).
Proof.
  intros H. cbv zeta.
  assert (D : forall k, dropN (40 + k) (pfx ++ tail_of (16 + 40 * (len l + 1))) = dropN k (tail_of (16 + 40 * (len l + 1)))).
  { intros k. rewrite N.add_comm, <- dropN_dropN, dropN_app_exact by exact H. reflexivity. }
  rewrite !D. pose proof tail_size_ok as T. unfold tail_of.
  change (8 * 4) with 32. change (8 * 2) with 16. change (8 * 3) with 24.
  replace (dropN 16 _) with (le64 48 ++ le64 (16 + 40 * (len l + 1)) ++ le64 CA_FORMAT_TABLE_TAIL_MARKER) by reflexivity.
  replace (dropN 24 _) with (le64 (16 + 40 * (len l + 1)) ++ le64 CA_FORMAT_TABLE_TAIL_MARKER) by reflexivity.
  replace (dropN 32 _) with (le64 CA_FORMAT_TABLE_TAIL_MARKER ++ []) by reflexivity.
  rewrite !rd64_le64; [auto|unfold two64 in *; lia|reflexivity|reflexivity].
Qed.

Lemma att_read_tail s : attached f mi av ma l s -> index_read_tail s = (Ok tt, upd_blob (blob_size_of l) s).
Proof.
  intros A. unfold index_read_tail. rewrite (bind_ok _ _ _ _ _ (att_index_size s A)), bind_get. unfold metadata_size. rewrite (a_start _ _ _ _ _ _ A), (a_data _ _ _ _ _ _ A). fold data.
  pose proof tail_size_ok as T. pose proof blob_lt as BL.
  assert (K : exists pfx, len pfx = 40 /\ rd64 pfx = blob_size_of l /\ 
    ((if len data =? 64 + 40
      then guard! len (file_pread data (len data - 40) 40) =? 40 else EBADMSG in ret (repeat 0 40 ++ file_pread data (len data - 40) 40)
      else guard! len (file_pread data (len data - 80) 80) =? 80 else EBADMSG in ret (file_pread data (len data - 80) 80)) s)
     = (Ok (pfx ++ tail_of (16 + 40 * (len l + 1))), s)).
  { rewrite data_len. destruct (last_cases l) as [E0|(pre & [id sz] & E)].
    - exists (repeat 0 40). assert (L0 : len l = 0) by (rewrite E0; reflexivity). split; [reflexivity|]. split; [rewrite E0; reflexivity|].
      pose proof tail_at as TA. rewrite L0 in *.
      change (104 + 40 * 0 =? 64 + 40) with true. cbn match. change (104 + 40 * 0 - 40) with (64 + 40 * 0).
      unfold file_pread. rewrite TA. rewrite takeN_all by (rewrite tail_of_len; lia). rewrite bind_guard, tail_of_len. reflexivity.
    - destruct (entry_bytes pre id sz [] E) as (rest & D & I1 & I2 & I3 & ->). cbn [image_entries app] in D.
      assert (Hl : len l = len pre + 1) by (rewrite E, len_app, len_cons; change (len (@nil (list N * N))) with 0; lia).
      assert (Hb : blob_size_of l = blob_size_of pre + sz) by (rewrite E, blob_size_app; cbn [blob_size_of fold_right snd]; lia).
      replace (104 + 40 * len l =? 64 + 40) with false by lia. replace (104 + 40 * len l - 80) with (64 + 40 * len pre) by lia.
      unfold file_pread. rewrite D. exists (le64 (blob_size_of pre + sz) ++ id). 
      assert (L40 : len (le64 (blob_size_of pre + sz) ++ id) = 40) by (rewrite len_app, le64_len; unfold len; lia).
      split; [exact L40|]. split; [rewrite rd64_le64 by (unfold UINT64_MAX, two64 in *; lia); lia|].
      rewrite app_assoc, takeN_all by (rewrite len_app, L40, tail_of_len; lia). rewrite bind_guard, len_app, L40, tail_of_len. reflexivity. }
  destruct K as (pfx & K1 & K2 & K3). rewrite (bind_ok _ _ _ _ _ K3).
  destruct (read_tail_bytes pfx K1) as (R1 & R2 & R3). rewrite !bind_guard, R1, R2, R3, data_len.
  rewrite N.eqb_refl. change (48 =? 48) with true. cbn match. rewrite N.mod_small by exact T.
  replace (16 + 40 * (len l + 1) + 48 =? 104 + 40 * len l) with true by lia.
  replace (rd64 (pfx ++ tail_of (16 + 40 * (len l + 1)))) with (rd64 pfx). 2: { unfold rd64. rewrite firstn_app. replace (8 - length pfx)%nat with O by (unfold len in K1; lia). rewrite firstn_O, app_nil_r. reflexivity. }
  rewrite K2. reflexivity.
Qed.

Lemma att_upd_blob s : attached f mi av ma l s -> attached f mi av ma l (upd_blob (blob_size_of l) s).
Proof. intros []. destruct s; cbn in *. constructor; cbn; auto. Qed.

Lemma att_blob s : attached f mi av ma l s -> exists s', index_get_blob_size s = (Ok (blob_size_of l), s') /\ attached f mi av ma l s'.
Proof.
  intros A. unfold index_get_blob_size. rewrite bind_get. pose proof blob_lt as B. destruct (N.eqb_spec (x_blob s) UINT64_MAX) as [E|E].
  - rewrite (bind_ok _ _ _ _ _ (att_read_tail s A)), bind_get. unfold ret. eexists. split; [destruct s; reflexivity|]. apply att_upd_blob, A.
  - rewrite bind_ret, bind_get. unfold ret. destruct (a_blob _ _ _ _ _ _ A) as [X|X]; [congruence|]. rewrite X. eauto.
Qed.

(** Positioning. *)
Lemma att_set_position s p : attached f mi av ma l s -> p <= len l ->
  exists s', index_set_position p s = (Ok tt, s') /\ attached f mi av ma l s' /\ reading data ma p (if p =? 0 then 0 else UINT64_MAX) s'.
Proof.
  intros A Hp. unfold index_set_position. rewrite bind_get, !bind_guard, (a_mode _ _ _ _ _ _ A), (a_start _ _ _ _ _ _ A). cbn [is_read_mode].
  change (64 =? 0) with false. cbn [negb]. change (2 ^ 34) with 17179869184 in Small.
  rewrite (N.mod_small (p * 40)) by (unfold two64; lia). replace (p * 40 <? p) with false by lia. cbn [negb].
  rewrite (N.mod_small (64 + p * 40)) by (unfold two64; lia). replace (64 + p * 40 <? p * 40) with false by lia. cbn [negb].
  replace (64 + p * 40 <? 9223372036854775808) with true by lia. unfold modS. eexists. split; [reflexivity|].
  destruct A as [A1 A2 A3 A4 A5 A6 A7 A8 A9]. destruct s; cbn in *. split; [constructor; cbn; assumption|]. unfold reading. cbn. repeat split; try assumption; lia.
Qed.

Lemma att_reading s k pv : reading data ma k pv s -> x_flags s = f -> x_min s = mi -> x_avg s = av -> (x_blob s = UINT64_MAX \/ x_blob s = blob_size_of l) -> attached f mi av ma l s.
Proof. intros (H1 & H2 & H3 & H4 & H5 & _) ? ? ? ?. constructor; assumption. Qed.

(** Reading entry number [len pre], with or without knowing the end of the one before. *)
Lemma att_read s pre id sz post pv : attached f mi av ma l s -> reading data ma (len pre) pv s -> l = pre ++ (id, sz) :: post ->
  pv = blob_size_of pre \/ pv = UINT64_MAX ->
  exists s', read_chunk_end s = (Ok (blob_size_of pre + sz), s') /\ attached f mi av ma l s' /\ reading data ma (len pre + 1) (blob_size_of pre + sz) s'.
Proof.
  intros A R E Hpv. destruct (entry_bytes pre id sz post E) as (rest & D & I1 & I2 & I3 & _). pose proof blob_lt as BL.
  assert (L2 : blob_size_of pre + sz < two64) by (unfold UINT64_MAX, two64 in *; lia).
  assert (K : exists r s', index_read_chunk s = (Ok (Some (id, blob_size_of pre + sz, r)), s') /\ reading data ma (len pre + 1) (blob_size_of pre + sz) s' /\
     x_flags s' = x_flags s /\ x_min s' = x_min s /\ x_avg s' = x_avg s /\ x_blob s' = x_blob s).
  { destruct Hpv as [-> | ->].
    - destruct (reading_next data ma (len pre) (blob_size_of pre) s _ id rest R D I1) as (s' & K1 & K2); [lia|lia|lia|unfold UINT64_MAX in *; lia|]. eauto.
    - rewrite (reading_read _ _ _ _ _ R). cbv zeta.
      assert (B : file_pread data (64 + 40 * len pre) 40 = le64 (blob_size_of pre + sz) ++ id).
      { unfold file_pread. rewrite D, app_assoc. apply takeN_app_exact. rewrite len_app, le64_len. unfold len. lia. }
      rewrite B. replace (len (le64 (blob_size_of pre + sz) ++ id) =? 40) with true by (rewrite len_app, le64_len; unfold len; lia).
      destruct R as (H1 & H2 & H3 & H4 & H5 & H6 & H7 & H8 & H9).
      assert (T : forall n, tail_test (le64 (blob_size_of pre + sz) ++ id) n = false).
      { intros n. unfold tail_test. rewrite rd64_le64 by exact L2. replace (blob_size_of pre + sz =? 0) with false by lia. rewrite !andb_false_r. reflexivity. }
      unfold entry_result. rewrite T, rd64_le64, H8 by exact L2. rewrite N.eqb_refl. cbn [orb negb].
      rewrite dropN_app_exact by apply le64_len. do 2 eexists. split; [reflexivity|].
      destruct s; cbn in *. unfold reading. cbn. subst. repeat split; try reflexivity; try lia. }
  destruct K as (r & s' & K1 & K2 & K3 & K4 & K5 & K6). exists s'. split; [unfold read_chunk_end; rewrite (bind_ok _ _ _ _ _ K1); reflexivity|].
  split; [|exact K2]. destruct A as [A1 A2 A3 A4 A5 A6 A7 A8 A9]. apply (att_reading s' _ _ K2); congruence || (rewrite K6; exact A9).
Qed.

Definition at_chunk (offset : N) (skip : N) (s : idx) : Prop :=
  exists pre id sz post, l = pre ++ (id, sz) :: post /\ blob_size_of pre <= offset < blob_size_of pre + sz /\ skip = offset - blob_size_of pre /\
    reading data ma (len pre) (blob_size_of pre) s /\ attached f mi av ma l s.

(** Cutting the list at a number. *)
Lemma cut_at p : p < len l -> exists pre id sz post, l = pre ++ (id, sz) :: post /\ len pre = p.
Proof.
  clear. intros H. assert (Hp : (N.to_nat p < length l)%nat) by (unfold len in H; lia).
  destruct (nth_error l (N.to_nat p)) as [[id sz]|] eqn:E; [|apply nth_error_None in E; lia].
  apply nth_error_split in E as (pre & post & E & L). exists pre, id, sz, post. split; [exact E|unfold len; lia].
Qed.

Lemma prefix_mono (pre post pre' post' : list (list N * N)) : l = pre ++ post -> l = pre' ++ post' -> len pre <= len pre' -> blob_size_of pre <= blob_size_of pre'.
Proof.
  clear. intros E E' H. assert (X : exists m, pre' = pre ++ m).
  { exists (skipn (length pre) pre'). rewrite <- (firstn_skipn (length pre) pre') at 1. f_equal.
    apply (f_equal (firstn (length pre))) in E. apply (f_equal (firstn (length pre))) in E'. rewrite firstn_app, Nat.sub_diag, firstn_all, app_nil_r in E.
    rewrite firstn_app in E'. replace (length pre - length pre')%nat with O in E' by (unfold len in H; lia). rewrite firstn_O, app_nil_r in E'. congruence. }
  destruct X as [m ->]. rewrite blob_size_app. lia.
Qed.

Lemma seek_loop_ok offset pc idc szc postc : l = pc ++ (idc, szc) :: postc -> blob_size_of pc <= offset < blob_size_of pc + szc -> 2 <= len l ->
  forall fuel left right s, attached f mi av ma l s -> left <= right -> right <= len l - 2 -> right - left < N.of_nat fuel ->
    (len pc = 0 /\ left = 0 \/ left < len pc <= right + 1) ->
  exists skip s', seek_loop fuel offset left right s = (Ok skip, s') /\ at_chunk offset skip s'.
Proof.
  intros Ec Hc Hl. induction fuel as [|fuel IH]; intros left right s A Hlr Hr Hf Hinv; [lia|]. cbn [seek_loop].
  set (p := left + (right - left) / 2). assert (Hp : left <= p <= right) by (unfold p; lia).
  assert (Hp' : p = right -> left = right) by (unfold p; lia). clearbody p.
  destruct (cut_at p ltac:(lia)) as (pre & id & sz & post & E & Lp).
  assert (E2 : l = (pre ++ [(id, sz)]) ++ post) by (rewrite <- app_assoc; exact E).
  assert (Lp2 : len (pre ++ [(id, sz)]) = p + 1) by (rewrite len_app, Lp; reflexivity).
  assert (Bp2 : blob_size_of (pre ++ [(id, sz)]) = blob_size_of pre + sz) by (rewrite blob_size_app; cbn [blob_size_of fold_right snd]; lia).
  assert (Ec2 : l = (pc ++ [(idc, szc)]) ++ postc) by (rewrite <- app_assoc; exact Ec).
  assert (Lc2 : len (pc ++ [(idc, szc)]) = len pc + 1) by (rewrite len_app; reflexivity).
  assert (Bc2 : blob_size_of (pc ++ [(idc, szc)]) = blob_size_of pc + szc) by (rewrite blob_size_app; cbn [blob_size_of fold_right snd]; lia).
  destruct (att_set_position s p A ltac:(lia)) as (s1 & P1 & A1 & R1). rewrite (bind_ok _ _ _ _ _ P1).
  assert (R1' : exists pv, (pv = blob_size_of pre \/ pv = UINT64_MAX) /\ reading data ma (len pre) pv s1).
  { rewrite Lp. destruct (N.eqb_spec p 0) as [Z|Z]; eexists; (split; [|exact R1]); [left|right; reflexivity].
    assert (pre = []) by (apply len_zero_nil; lia). subst pre. reflexivity. }
  destruct R1' as (pv & Hpv & R1'). destruct (att_read s1 pre id sz post pv A1 R1' E Hpv) as (s2 & P2 & A2 & R2). rewrite (bind_ok _ _ _ _ _ P2).
  destruct (N.ltb_spec offset (blob_size_of pre + sz)) as [O|O].
  - assert (Cp : len pc <= p).
    { destruct (N.leb_spec (len pc) p) as [|X]; [assumption|exfalso]. pose proof (prefix_mono _ _ _ _ E2 Ec ltac:(lia)). lia. }
    destruct (N.eqb_spec p 0) as [Z|Z].
    + destruct (att_set_position s2 0 A2 ltac:(lia)) as (s3 & P3 & A3 & R3). rewrite (bind_ok _ _ _ _ _ P3). unfold ret. do 2 eexists. split; [reflexivity|].
      assert (pc = []) by (apply len_zero_nil; lia). subst pc. exists [], idc, szc, postc. split; [exact Ec|]. split; [exact Hc|]. split; [cbn; lia|]. split; [exact R3|exact A3].
    + destruct (N.eqb_spec p right) as [Z'|Z'].
      * exfalso. specialize (Hp' Z'). lia.
      * apply IH; [exact A2|lia|lia|lia|lia].
  - assert (Cp : p + 1 <= len pc).
    { destruct (N.leb_spec (p + 1) (len pc)) as [|X]; [assumption|exfalso]. pose proof (prefix_mono _ _ _ _ Ec2 E2 ltac:(lia)). lia. }
    destruct (cut_at (p + 1) ltac:(lia)) as (pre' & id' & sz' & post' & E' & Lp').
    assert (Epre : pre' = pre ++ [(id, sz)]).
    { apply (f_equal (firstn (length pre'))) in E'. rewrite firstn_app, Nat.sub_diag, firstn_all, firstn_O, app_nil_r in E'. rewrite <- E', E2.
      rewrite firstn_app_len; [reflexivity|]. unfold len in *. lia. }
    rewrite Lp in R2. subst pre'.
    destruct (att_read s2 (pre ++ [(id, sz)]) id' sz' post' (blob_size_of pre + sz) A2) as (s3 & P3 & A3 & R3); [rewrite Lp2; exact R2|exact E'|left; lia|].
    rewrite (bind_ok _ _ _ _ _ P3). rewrite Bp2.
    destruct (N.leb_spec (blob_size_of pre + sz + sz') offset) as [O2|O2].
    + assert (Cp2 : p + 2 <= len pc).
      { destruct (N.leb_spec (p + 2) (len pc)) as [|X]; [assumption|exfalso]. 
        assert (E3 : l = ((pre ++ [(id, sz)]) ++ [(id', sz')]) ++ post') by (rewrite <- app_assoc; exact E').
        assert (L3 : len ((pre ++ [(id, sz)]) ++ [(id', sz')]) = p + 2) by (rewrite len_app, Lp2; change (len [(id', sz')]) with 1; lia).
        assert (B3 : blob_size_of ((pre ++ [(id, sz)]) ++ [(id', sz')]) = blob_size_of pre + sz + sz') by (rewrite blob_size_app, Bp2; cbn [blob_size_of fold_right snd]; lia).
        pose proof (prefix_mono _ _ _ _ Ec2 E3 ltac:(lia)). lia. }
      apply IH; [exact A3|lia|lia|lia|lia].
    + destruct (att_set_position s3 (p + 1) A3 ltac:(lia)) as (s4 & P4 & A4 & R4). rewrite (bind_ok _ _ _ _ _ P4), bind_mod. unfold ret. do 2 eexists. split; [reflexivity|].
      exists (pre ++ [(id, sz)]), id', sz', post'. split; [exact E'|]. rewrite Bp2, Lp2. split; [lia|]. split; [reflexivity|]. split.
      * destruct R4 as (H1 & H2 & H3 & H4 & H5 & H6 & H7 & H8 & H9). clear P4. destruct s4; cbn in *. unfold reading. cbn. repeat split; assumption.
      * destruct A4 as [B1 B2 B3 B4 B5 B6 B7 B8 B9]. clear P4. destruct s4; cbn in *. constructor; cbn; assumption.
Qed.

(** Every chunk but the last has at least the minimal size. *)
Definition min_respected : Prop := forall pre id sz post, l = pre ++ (id, sz) :: post -> post <> [] -> mi <= sz.

Lemma find_chunk (k : list (list N * N)) offset : offset < blob_size_of k -> exists pre id sz post, k = pre ++ (id, sz) :: post /\ blob_size_of pre <= offset < blob_size_of pre + sz.
Proof.
  clear. revert offset. induction k as [|[id sz] k IH]; intros offset H; [cbn in H; lia|]. cbn [blob_size_of fold_right snd] in H. fold (blob_size_of k) in H.
  destruct (N.ltb_spec offset sz) as [L|L].
  - exists [], id, sz, k. cbn. split; [reflexivity|lia].
  - destruct (IH (offset - sz) ltac:(lia)) as (pre & id' & sz' & post & -> & B). exists ((id, sz) :: pre), id', sz', post. split; [reflexivity|].
    cbn [blob_size_of fold_right snd]. fold (blob_size_of pre). lia.
Qed.

Lemma seek_ok s offset : attached f mi av ma l s -> min_respected ->
  exists r s', index_seek offset s = (r, s') /\ attached f mi av ma l s' /\
    (if offset <? blob_size_of l then exists skip, r = Ok skip /\ at_chunk offset skip s' else r = Err ENXIO).
Proof.
  intros A Hmin. destruct (att_blob s A) as (s1 & P1 & A1). unfold index_seek. rewrite (bind_ok _ _ _ _ _ P1), bind_guard.
  destruct (N.leb_spec (blob_size_of l) offset) as [L|L]; cbn [negb].
  { replace (offset <? blob_size_of l) with false by lia. eauto. }
  replace (offset <? blob_size_of l) with true by lia. rewrite (bind_ok _ _ _ _ _ (att_total s1 A1)), bind_guard.
  destruct (find_chunk l offset L) as (pc & idc & szc & postc & Ec & Hc).
  assert (Hl : 1 <= len l) by (rewrite Ec, len_app, len_cons; lia).
  replace (len l =? 0) with false by lia. cbn [negb]. rewrite bind_get, (a_min _ _ _ _ _ _ A1).
  assert (First : pc = [] -> forall s3, reading data ma 0 (if 0 =? 0 then 0 else UINT64_MAX) s3 -> attached f mi av ma l s3 -> at_chunk offset offset s3).
  { intros -> s3 R3 A3. exists [], idc, szc, postc. split; [exact Ec|]. split; [exact Hc|]. split; [cbn; lia|]. split; [exact R3|exact A3]. }
  destruct ((len l =? 1) || (offset <? mi)) eqn:B.
  - destruct (att_set_position s1 0 A1 ltac:(lia)) as (s3 & P3 & A3 & R3). rewrite (bind_ok _ _ _ _ _ P3). unfold ret. do 2 eexists. split; [reflexivity|]. split; [exact A3|].
    eexists. split; [reflexivity|]. apply First; [|exact R3|exact A3]. apply orb_true_iff in B as [B|B].
    + apply len_zero_nil. rewrite Ec, len_app, len_cons in B. lia.
    + destruct pc as [|[id0 sz0] pc']; [reflexivity|exfalso].
      assert (mi <= sz0) by (apply (Hmin [] id0 sz0 (pc' ++ (idc, szc) :: postc)); [exact Ec|destruct pc'; discriminate]).
      cbn [blob_size_of fold_right snd] in Hc. fold (blob_size_of pc') in Hc. lia.
  - apply orb_false_iff in B as [B1 B2]. destruct (seek_loop_ok offset pc idc szc postc Ec Hc ltac:(lia) (N.to_nat (len l)) 0 (len l - 2) s1 A1) as (skip & s' & S1 & S2); [lia|lia|lia| |].
    + assert (len pc + 1 <= len l) by (rewrite Ec, len_app, len_cons; lia). lia.
    + rewrite S1. do 2 eexists. split; [reflexivity|]. destruct S2 as (pre & id & sz & post & X1 & X2 & X3 & X4 & X5). split; [exact X5|]. eexists. split; [reflexivity|].
      exists pre, id, sz, post. auto.
Qed.

(** From there on, reading delivers that chunk and all the following. *)
Lemma at_chunk_scans offset skip s : at_chunk offset skip s ->
  exists pre id sz post, l = pre ++ (id, sz) :: post /\ blob_size_of pre <= offset < blob_size_of pre + sz /\ skip = offset - blob_size_of pre /\
    scans s (entries_of (blob_size_of pre) ((id, sz) :: post)).
Proof.
  intros (pre & id & sz & post & E & H & S & R & _). exists pre, id, sz, post. repeat (split; [assumption|]).
  destruct C as [C1 C2]. assert (C1' := C1). rewrite E in C1'. apply Forall_app in C1' as [_ C1'].
  assert (Lk : len pre + len ((id, sz) :: post) = len l) by (rewrite E, len_app; reflexivity).
  assert (Bk : blob_size_of pre + blob_size_of ((id, sz) :: post) = blob_size_of l) by (rewrite E, blob_size_app; reflexivity).
  apply (reading_scans data ma _ (len pre) (blob_size_of pre) s R C1'); [lia|rewrite Lk; pose proof tail_size_ok; lia|].
  rewrite Lk. destruct (entry_bytes pre id sz post E) as (rest & D & _ & _ & _ & ->). rewrite D. cbn [image_entries]. rewrite <- !app_assoc. reflexivity.
Qed.
End Attached.
