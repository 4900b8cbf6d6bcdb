(** Proofs about the index model. *)
From Verif Require Import Base Chunker FeatureFlags FeatureFlagsSpec FeatureFlagsProofs Index IndexSpec.
Local Open Scope N_scope.

Lemma bind_ret {A B} (a : A) (f : A -> op B) s : bindM (ret a) f s = f a s.
Proof. reflexivity. Qed.
Lemma bind_get {B} (f : idx -> op B) s : bindM getS f s = f s s.
Proof. reflexivity. Qed.
Lemma bind_mod {B} g (f : unit -> op B) s : bindM (modS g) f s = f tt (g s).
Proof. reflexivity. Qed.
Lemma bind_guard {B} (c : bool) e (f : unit -> op B) s :
  bindM (if c then ret tt else fail e) f s = if c then f tt s else (Err e, s).
Proof. destruct c; reflexivity. Qed.
Lemma bind_ok {A B} (m : op A) (f : A -> op B) s a s' : m s = (Ok a, s') -> bindM m f s = f a s'.
Proof. unfold bindM. intros ->. reflexivity. Qed.
Lemma bind_err {A B} (m : op A) (f : A -> op B) s e s' : m s = (Err e, s') -> bindM m f s = (Err e, s').
Proof. unfold bindM. intros ->. reflexivity. Qed.
Lemma bind_Ok_inv {A B} (m : op A) (f : A -> op B) s b s' :
  bindM m f s = (Ok b, s') -> exists a s1, m s = (Ok a, s1) /\ f a s1 = (Ok b, s').
Proof. unfold bindM. destruct (m s) as [[a| | |] s1]; try discriminate. eauto. Qed.

(** * Files *)
Lemma file_pwrite_end f d : file_pwrite f d (len f) = f ++ d.
Proof.
  unfold file_pwrite. rewrite N.sub_diag. cbn [N.to_nat repeat]. change (repeat 0 (N.to_nat 0)) with (@nil N). rewrite app_nil_r.
  rewrite takeN_all by lia. rewrite dropN_all by lia. rewrite app_nil_r. reflexivity.
Qed.

Lemma le64_len n : len (le64 n) = 8. Proof. reflexivity. Qed.

(** * The opened reader *)
Definition rd (f mi av ma start cooked raw it pv : N) (eof : bool) (blob : N) (tmp : bool) (data : list N) (fpos : N) fin lim : idx :=
  Idx CA_INDEX_READ f mi av ma start cooked raw it pv eof blob true tmp data fpos fin lim.

Lemma open_noop s : x_open s = true -> x_start s <> 0 -> index_open s = (Ok tt, s).
Proof.
  intros Ho Hs. apply N.eqb_neq in Hs.
  assert (R : index_read_head s = (Ok tt, s)).
  { unfold index_read_head. rewrite bind_get. destruct (negb (is_read_mode (x_mode s))); [reflexivity|]. rewrite Hs. reflexivity. }
  assert (W : index_write_head s = (Ok tt, s)).
  { unfold index_write_head. rewrite bind_get. destruct (negb (is_write_mode (x_mode s))); [reflexivity|]. rewrite Hs. reflexivity. }
  assert (O : index_open_fd s = (Ok tt, s)).
  { unfold index_open_fd. rewrite bind_get, Ho. reflexivity. }
  unfold index_open. rewrite (bind_ok _ _ _ _ _ O). cbn beta. unfold bindM. rewrite R. exact W.
Qed.

(** One read, in terms of the 40 bytes at the file offset. *)
Definition tail_test (b : list N) (size : N) : bool :=
  (rd64 (dropN 32 b) =? CA_FORMAT_TABLE_TAIL_MARKER) && (rd64 b =? 0) && (rd64 (dropN 8 b) =? 0)
  && (rd64 (dropN 16 b) =? 48) && (rd64 (dropN 24 b) =? size).

Definition entry_result (s : idx) (b : list N) : res (option (list N * N * N)) * idx :=
  let s1 := upd_file (x_data s) (x_fpos s + 40) s in
  if tail_test b (x_cooked s - x_start s + 56) then
    if len (file_pread (x_data s) (x_fpos s + 40) 1) =? 0
    then (Ok None, s1)
    else (Err EBADMSG, upd_file (x_data s) (x_fpos s + 41) s)
  else if negb ((x_prev s =? UINT64_MAX) || (x_prev s <? rd64 b)) then (Err EBADMSG, s1)
  else if negb ((x_prev s =? UINT64_MAX) || (rd64 b - x_prev s <=? x_max s)) then (Err EBADMSG, s1)
  else (Ok (Some (dropN 8 b, rd64 b, if x_prev s =? UINT64_MAX then UINT64_MAX else rd64 b - x_prev s)),
        upd_offs (x_start s) (x_cooked s + 40) (upd_item (x_item s + 1) (upd_prev (rd64 b) s1))).

Lemma read_chunk_eq s : x_open s = true -> x_start s <> 0 -> is_read_mode (x_mode s) = true ->
  index_enough_data 41 s = (Ok true, s) ->
  let b := file_pread (x_data s) (x_fpos s) 40 in
  index_read_chunk s =
    if len b =? 40 then entry_result s b else (Err EPIPE, upd_file (x_data s) (x_fpos s + len b) s).
Proof.
  intros Ho Hs Hm He b. unfold index_read_chunk.
  rewrite (bind_ok _ _ _ _ _ (open_noop s Ho Hs)), bind_get, bind_guard, Hm, (bind_ok _ _ _ _ _ He). cbn [negb].
  unfold loop_read at 1. unfold bindM at 1. fold b. rewrite bind_guard.
  destruct (N.eqb_spec (len b) 40) as [E|E]; [|reflexivity].
  rewrite bind_get. change (dropN (8 * 0) b) with b. change (8 * 1) with 8. change (8 * 2) with 16. change (8 * 3) with 24. change (8 * 4) with 32.
  unfold entry_result, tail_test. rewrite E. destruct s as [m f a0 b0 c0 d e g h i j k l n o p q r]. cbn [x_data x_fpos x_cooked x_start x_prev x_max x_item upd_file] in *.
  replace (e - d + 16 + 40) with (e - d + 56) by lia.
  destruct (_ && _ && _ && _ && _).
  - unfold loop_read, bindM, ret, fail. cbn [x_data x_fpos upd_file].
    destruct (N.eqb_spec (len (file_pread o (p + 40) 1)) 0) as [Z|Z].
    + rewrite Z. replace (p + 40 + 0) with (p + 40) by lia. reflexivity.
    + replace (len (file_pread o (p + 40) 1)) with 1. 2: { unfold file_pread in *. rewrite len_takeN in *. lia. }
      replace (p + 40 + 1) with (p + 41) by lia. reflexivity.
  - rewrite !bind_guard.
    destruct ((i =? UINT64_MAX) || (i <? rd64 b)) eqn:E1; cbn [negb]; [|reflexivity].
    destruct ((i =? UINT64_MAX) || (rd64 b - i <=? c0)) eqn:E2; cbn [negb]; [|reflexivity].
    rewrite bind_mod. reflexivity.
Qed.

(** * Sequential reading *)
Inductive scans : idx -> list (list N * N * N) -> Prop :=
| scans_end s s' : index_read_chunk s = (Ok None, s') -> scans s []
| scans_next s e s' l : index_read_chunk s = (Ok (Some e), s') -> scans s' l -> scans s (e :: l).

Definition tail_of (n : N) : list N := le64 0 ++ le64 0 ++ le64 48 ++ le64 n ++ le64 CA_FORMAT_TABLE_TAIL_MARKER.

Lemma len40_parts (b : list N) : length b = 40%nat -> b = takeN 8 b ++ takeN 8 (dropN 8 b) ++ takeN 8 (dropN 16 b) ++ takeN 8 (dropN 24 b) ++ dropN 32 b.
Proof.
  intros H. rewrite <- (takeN_dropN 8 b) at 1. f_equal.
  rewrite <- (takeN_dropN 8 (dropN 8 b)) at 1. rewrite dropN_dropN. change (8 + 8) with 16. f_equal.
  rewrite <- (takeN_dropN 8 (dropN 16 b)) at 1. rewrite dropN_dropN. change (8 + 16) with 24. f_equal.
  rewrite <- (takeN_dropN 8 (dropN 24 b)) at 1. rewrite dropN_dropN. reflexivity.
Qed.

Lemma le64_rd64 l : length l = 8%nat -> bytes_ok l = true -> l = le64 (rd64 l).
Proof. intros Hl Hb. unfold le64, rd64. rewrite firstn_all2 by lia. rewrite <- Hl. symmetry. apply le_enc_dec, Hb. Qed.
Lemma bytes_ok_takeN n l : bytes_ok l = true -> bytes_ok (takeN n l) = true.
Proof. apply bytes_ok_firstn. Qed.
Lemma bytes_ok_dropN n l : bytes_ok l = true -> bytes_ok (dropN n l) = true.
Proof. apply bytes_ok_skipn. Qed.
Lemma rd64_takeN n l : 8 <= n -> rd64 (takeN n l) = rd64 l.
Proof. intros H. unfold rd64, takeN. rewrite firstn_firstn. do 2 f_equal. lia. Qed.
Lemma takeN8_le64 l : 8 <= len l -> bytes_ok l = true -> takeN 8 l = le64 (rd64 l).
Proof.
  intros H B. rewrite <- (rd64_takeN 8 l) by lia. apply le64_rd64; [|apply bytes_ok_takeN, B].
  unfold takeN. rewrite firstn_length. unfold len in H. lia.
Qed.

Lemma tail_test_spec b n : len b = 40 -> bytes_ok b = true -> (tail_test b n = true <-> n < two64 /\ b = tail_of n).
Proof.
  intros Hl Hb. assert (Hl' : length b = 40%nat) by (unfold len in Hl; lia). unfold tail_test. rewrite !andb_true_iff, !N.eqb_eq. split.
  - intros [[[[H4 H0] H1] H2] H3]. split; [rewrite <- H3; apply rd64_lt, bytes_ok_dropN, Hb|].
    rewrite (len40_parts b Hl'). unfold tail_of.
    rewrite takeN8_le64, H0 by (rewrite ?len_dropN; auto using bytes_ok_dropN; lia).
    rewrite takeN8_le64, H1 by (rewrite ?len_dropN; auto using bytes_ok_dropN; lia).
    rewrite takeN8_le64, H2 by (rewrite ?len_dropN; auto using bytes_ok_dropN; lia).
    rewrite takeN8_le64, H3 by (rewrite ?len_dropN; auto using bytes_ok_dropN; lia).
    do 4 f_equal. rewrite <- H4. apply le64_rd64; [|apply bytes_ok_dropN, Hb]. unfold dropN. rewrite skipn_length. lia.
  - intros [Hn ->]. unfold tail_of.
    replace (dropN 8 _) with (le64 0 ++ le64 48 ++ le64 n ++ le64 CA_FORMAT_TABLE_TAIL_MARKER) by reflexivity.
    replace (dropN 16 _) with (le64 48 ++ le64 n ++ le64 CA_FORMAT_TABLE_TAIL_MARKER) by reflexivity.
    replace (dropN 24 _) with (le64 n ++ le64 CA_FORMAT_TABLE_TAIL_MARKER) by reflexivity.
    replace (dropN 32 _) with (le64 CA_FORMAT_TABLE_TAIL_MARKER ++ []) by reflexivity.
    rewrite !rd64_le64; auto; unfold two64, CA_FORMAT_TABLE_TAIL_MARKER; lia.
Qed.

(** A reader that is past [k] entries and has seen the end offset [off]. *)
Definition reading (data : list N) (ma k off : N) (s : idx) : Prop :=
  x_open s = true /\ x_start s = 64 /\ x_mode s = CA_INDEX_READ /\ x_max s = ma /\ x_data s = data /\
  x_cooked s = 64 + 40 * k /\ x_fpos s = 64 + 40 * k /\ x_prev s = off /\ x_item s = k.

Lemma enough_read n s : x_mode s = CA_INDEX_READ -> index_enough_data n s = (Ok true, s).
Proof. intros H. unfold index_enough_data. rewrite bind_get, H. reflexivity. Qed.

Lemma reading_read data ma k off s : reading data ma k off s ->
  index_read_chunk s =
    let b := file_pread data (64 + 40 * k) 40 in
    if len b =? 40 then entry_result s b else (Err EPIPE, upd_file data (64 + 40 * k + len b) s).
Proof.
  intros (H1 & H2 & H3 & H4 & H5 & H6 & H7 & H8 & H9). cbv zeta.
  rewrite read_chunk_eq; [rewrite H5, H7; reflexivity|assumption|rewrite H2; discriminate|rewrite H3; reflexivity|apply enough_read, H3].
Qed.

Lemma reading_next data ma k off s e id rest :
  reading data ma k off s -> dropN (64 + 40 * k) data = le64 e ++ id ++ rest ->
  length id = 32%nat -> off < e -> e < two64 -> e - off <= ma -> off <> UINT64_MAX ->
  exists s', index_read_chunk s = (Ok (Some (id, e, e - off)), s') /\ reading data ma (k + 1) e s' /\
    x_flags s' = x_flags s /\ x_min s' = x_min s /\ x_avg s' = x_avg s /\ x_blob s' = x_blob s.
Proof.
  intros R D Hid Hlt He Hma Hoff. rewrite (reading_read _ _ _ _ _ R). cbv zeta.
  assert (B : file_pread data (64 + 40 * k) 40 = le64 e ++ id).
  { unfold file_pread. rewrite D, app_assoc. apply takeN_app_exact. rewrite len_app, le64_len. unfold len. lia. }
  rewrite B. destruct (N.eqb_spec (len (le64 e ++ id)) 40) as [_|X]; [|exfalso; apply X; rewrite len_app, le64_len; unfold len; lia].
  destruct R as (H1 & H2 & H3 & H4 & H5 & H6 & H7 & H8 & H9).
  assert (T : forall n, tail_test (le64 e ++ id) n = false).
  { intros n. unfold tail_test. rewrite rd64_le64 by exact He. replace (e =? 0) with false by lia. rewrite !andb_false_r. reflexivity. }
  unfold entry_result. rewrite T, rd64_le64, H8, H4 by exact He.
  replace (off =? UINT64_MAX) with false by lia. replace (off <? e) with true by lia. replace (e - off <=? ma) with true by lia. cbn [orb negb].
  rewrite dropN_app_exact by apply le64_len.
  eexists. split; [reflexivity|]. destruct s; cbn in *. unfold reading. cbn. subst. repeat split; try reflexivity; try lia.
Qed.

Lemma reading_end data ma k off s :
  reading data ma k off s -> dropN (64 + 40 * k) data = tail_of (16 + 40 * (k + 1)) -> 16 + 40 * (k + 1) < two64 ->
  exists s', index_read_chunk s = (Ok None, s').
Proof.
  intros R D Hk. rewrite (reading_read _ _ _ _ _ R). cbv zeta.
  assert (B : file_pread data (64 + 40 * k) 40 = tail_of (16 + 40 * (k + 1))).
  { unfold file_pread. rewrite D. apply takeN_all. unfold tail_of. rewrite !len_app, !le64_len. lia. }
  rewrite B. change (len (tail_of (16 + 40 * (k + 1))) =? 40) with true. cbn match.
  destruct R as (H1 & H2 & H3 & H4 & H5 & H6 & H7 & H8 & H9). unfold entry_result.
  assert (T : tail_test (tail_of (16 + 40 * (k + 1))) (x_cooked s - x_start s + 56) = true).
  { rewrite H6, H2. replace (64 + 40 * k - 64 + 56) with (16 + 40 * (k + 1)) by lia.
    apply tail_test_spec; [reflexivity| |auto]. unfold tail_of. rewrite !bytes_ok_app. unfold le64. rewrite !le_enc_ok. reflexivity. }
  rewrite T. assert (Z : len (file_pread (x_data s) (x_fpos s + 40) 1) = 0).
  { unfold file_pread. rewrite len_takeN, len_dropN, H5, H7.
    assert (L : len (dropN (64 + 40 * k) data) = 40) by (rewrite D; reflexivity). rewrite len_dropN in L. lia. }
  rewrite Z, N.eqb_refl. eauto.
Qed.

(** What a successful read says about the bytes. *)
Lemma reading_inv data ma k off s r s' : bytes_ok data = true ->
  reading data ma k off s -> off <> UINT64_MAX -> index_read_chunk s = (Ok r, s') ->
  match r with
  | None => dropN (64 + 40 * k) data = tail_of (16 + 40 * (k + 1)) /\ 16 + 40 * (k + 1) < two64
  | Some (id, e, sz) => exists rest, dropN (64 + 40 * k) data = le64 e ++ id ++ rest /\ length id = 32%nat /\ bytes_ok id = true /\
      off < e /\ e < two64 /\ sz = e - off /\ sz <= ma /\ reading data ma (k + 1) e s'
  end.
Proof.
  intros Hb R Hoff. rewrite (reading_read _ _ _ _ _ R). cbv zeta.
  set (b := file_pread data (64 + 40 * k) 40).
  destruct (N.eqb_spec (len b) 40) as [Hl|]; [|discriminate].
  assert (Bb : bytes_ok b = true) by (apply bytes_ok_takeN, bytes_ok_dropN, Hb).
  assert (D : dropN (64 + 40 * k) data = b ++ dropN 40 (dropN (64 + 40 * k) data)) by (symmetry; apply takeN_dropN).
  pose proof R as (H1 & H2 & H3 & H4 & H5 & H6 & H7 & H8 & H9). unfold entry_result.
  rewrite H2, H6, H7, H5. replace (64 + 40 * k - 64 + 56) with (16 + 40 * (k + 1)) by lia.
  destruct (tail_test b (16 + 40 * (k + 1))) eqn:T.
  - apply tail_test_spec in T as [T1 T2]; [|exact Hl|exact Bb].
    destruct (N.eqb_spec (len (file_pread data (64 + 40 * k + 40) 1)) 0) as [Z|]; [|discriminate].
    intros E. assert (r = None) as -> by congruence. split; [|exact T1]. rewrite D, T2.
    assert (X : dropN 40 (dropN (64 + 40 * k) data) = []).
    { apply len_zero_nil. unfold file_pread in Z. rewrite len_takeN, len_dropN in Z. rewrite !len_dropN. lia. }
    rewrite X, app_nil_r. reflexivity.
  - rewrite H8, H4. replace (off =? UINT64_MAX) with false by lia. cbn [orb].
    destruct (N.ltb_spec off (rd64 b)) as [L1|]; [|discriminate]. cbn [negb].
    destruct (N.leb_spec (rd64 b - off) ma) as [L2|]; [|discriminate]. cbn [negb].
    intros E. assert (Er : r = Some (dropN 8 b, rd64 b, rd64 b - off)) by congruence.
    assert (Es : s' = upd_offs 64 (64 + 40 * k + 40) (upd_item (x_item s + 1) (upd_prev (rd64 b) (upd_file data (64 + 40 * k + 40) s)))) by congruence.
    subst r. exists (dropN 40 (dropN (64 + 40 * k) data)).
    split; [rewrite D at 1; rewrite app_assoc; f_equal; rewrite <- takeN8_le64 by (auto; lia); symmetry; apply takeN_dropN|].
    split; [unfold dropN; rewrite skipn_length; unfold len in Hl; lia|]. split; [apply bytes_ok_dropN, Bb|].
    split; [exact L1|]. split; [apply rd64_lt, Bb|]. split; [reflexivity|]. split; [exact L2|].
    subst s'. destruct s; cbn in *. unfold reading. cbn. subst. repeat split; try reflexivity; try lia.
Qed.

(** * The head *)
Fixpoint words64 (n : nat) (h : list N) : list N :=
  match n with O => [] | S n => le64 (rd64 h) ++ words64 n (dropN 8 h) end.
Lemma words64_eq n h : len h = 8 * N.of_nat n -> bytes_ok h = true -> h = words64 n h.
Proof.
  revert h. induction n as [|n IH]; intros h Hl Hb; cbn [words64].
  - apply len_zero_nil. lia.
  - rewrite <- takeN8_le64 by (auto; lia). rewrite <- IH; [symmetry; apply takeN_dropN| |apply bytes_ok_dropN, Hb].
    rewrite len_dropN. lia.
Qed.

Lemma head_bytes_len f mi av ma : len (head_bytes f mi av ma) = 64. Proof. reflexivity. Qed.

Lemma normalized_known f b : feature_flags_are_normalized f = Ok b -> f < two64 /\ f <> UINT64_MAX.
Proof.
  unfold feature_flags_are_normalized. destruct (N.eqb_spec f UINT64_MAX) as [|E]; [discriminate|].
  destruct (N.eqb_spec (N.ldiff f FEATURE_FLAGS_MAX) 0) as [K|]; [|cbn [negb]; discriminate]. intros _. split; [|exact E].
  apply only_known_mask in K. destruct (N.ltb_spec f two64) as [|L]; [assumption|]. exfalso.
  assert (Hz : f <> 0) by (unfold two64 in L; lia).
  pose proof (K (N.log2 f) (N.bit_log2 f Hz)) as X. 
  assert (64 <= N.log2 f) by (apply N.log2_le_pow2; [unfold two64 in L; lia|exact L]). unfold known_bit in X. lia.
Qed.

Definition hd_fld (h : list N) (k : N) : N := rd64 (dropN (8 * k) h).
Definition head_check (h : list N) : res (N * N * N * N) :=
  if negb (len h =? 64) then Err EPIPE
  else if negb ((hd_fld h 0 =? 48) && (hd_fld h 1 =? CA_FORMAT_INDEX)) then Err EBADMSG
  else match feature_flags_are_normalized (hd_fld h 2) with
  | Err e => Err e | Abort => Abort | UB => UB
  | Ok false => Err EINVAL
  | Ok true =>
    if ((hd_fld h 3 <? LIMIT_MIN) || (LIMIT_MAX <? hd_fld h 3)) then Err EBADMSG
    else if ((hd_fld h 4 <? LIMIT_MIN) || (LIMIT_MAX <? hd_fld h 4)) then Err EBADMSG
    else if ((hd_fld h 5 <? LIMIT_MIN) || (LIMIT_MAX <? hd_fld h 5)) then Err EBADMSG
    else if negb ((hd_fld h 3 <=? hd_fld h 4) && (hd_fld h 4 <=? hd_fld h 5)) then Err EBADMSG
    else if negb ((hd_fld h 6 =? UINT64_MAX) && (hd_fld h 7 =? CA_FORMAT_TABLE)) then Err EBADMSG
    else Ok (hd_fld h 2, hd_fld h 3, hd_fld h 4, hd_fld h 5)
  end.

Lemma read_head_eq s : is_read_mode (x_mode s) = true -> x_start s = 0 -> x_cooked s = 0 -> index_enough_data 64 s = (Ok true, s) ->
  let h := file_pread (x_data s) (x_fpos s) 64 in
  let s1 := upd_file (x_data s) (x_fpos s + len h) s in
  index_read_head s = match head_check h with
    | Ok (f, mi, av, ma) => (Ok tt, upd_sizes mi av ma (upd_flags f (upd_offs 64 64 s1)))
    | Err e => (Err e, s1) | Abort => (Abort, s1) | UB => (UB, s1) end.
Proof.
  intros Hm Hs Hc He h s1. unfold index_read_head. rewrite bind_get, Hm, Hs, Hc. cbn [negb]. rewrite !N.eqb_refl. cbn [negb].
  rewrite (bind_ok _ _ _ _ _ He). cbn [negb]. unfold loop_read. unfold bindM at 1. fold h. fold s1. rewrite bind_guard.
  unfold head_check. change (rd64 (dropN (8 * ?k) h)) with (hd_fld h k).
  destruct (len h =? 64); cbn [negb]; [|reflexivity]. rewrite bind_guard. fold (hd_fld h 0). fold (hd_fld h 1). fold (hd_fld h 2).
  fold (hd_fld h 3). fold (hd_fld h 4). fold (hd_fld h 5). fold (hd_fld h 6). fold (hd_fld h 7).
  destruct ((hd_fld h 0 =? 48) && (hd_fld h 1 =? CA_FORMAT_INDEX)); cbn [negb]; [|reflexivity].
  destruct (feature_flags_are_normalized (hd_fld h 2)) as [[|]| | |]; try reflexivity.
  rewrite bind_guard. destruct ((hd_fld h 3 <? LIMIT_MIN) || (LIMIT_MAX <? hd_fld h 3)); cbn [negb]; [reflexivity|].
  rewrite bind_guard. destruct ((hd_fld h 4 <? LIMIT_MIN) || (LIMIT_MAX <? hd_fld h 4)); cbn [negb]; [reflexivity|].
  rewrite bind_guard. destruct ((hd_fld h 5 <? LIMIT_MIN) || (LIMIT_MAX <? hd_fld h 5)); cbn [negb]; [reflexivity|].
  rewrite bind_guard. destruct ((hd_fld h 3 <=? hd_fld h 4) && (hd_fld h 4 <=? hd_fld h 5)); cbn [negb]; [|reflexivity].
  rewrite bind_guard. destruct ((hd_fld h 6 =? UINT64_MAX) && (hd_fld h 7 =? CA_FORMAT_TABLE)); cbn [negb]; [|reflexivity].
  reflexivity.
Qed.

Lemma head_check_spec h f mi av ma : bytes_ok h = true ->
  (head_check h = Ok (f, mi, av, ma) <-> params_ok f mi av ma /\ h = head_bytes f mi av ma).
Proof.
  intros Hb. unfold head_check, params_ok, LIMIT_MIN, LIMIT_MAX. split.
  - destruct (N.eqb_spec (len h) 64) as [Hl|]; cbn [negb]; [|discriminate].
    destruct ((hd_fld h 0 =? 48) && (hd_fld h 1 =? CA_FORMAT_INDEX)) eqn:E01; cbn [negb]; [|discriminate].
    destruct (feature_flags_are_normalized (hd_fld h 2)) as [[|]| | |] eqn:E2; try discriminate.
    destruct ((hd_fld h 3 <? 1) || _) eqn:E3; [discriminate|]. destruct ((hd_fld h 4 <? 1) || _) eqn:E4; [discriminate|]. destruct ((hd_fld h 5 <? 1) || _) eqn:E5; [discriminate|].
    destruct ((hd_fld h 3 <=? hd_fld h 4) && _) eqn:E6; cbn [negb]; [|discriminate]. destruct ((hd_fld h 6 =? UINT64_MAX) && _) eqn:E7; cbn [negb]; [|discriminate].
    intros E. assert (hd_fld h 2 = f /\ hd_fld h 3 = mi /\ hd_fld h 4 = av /\ hd_fld h 5 = ma) as (<- & <- & <- & <-) by (repeat split; congruence). clear E.
    split; [repeat split; try assumption; lia|].
    apply andb_true_iff in E01 as [E0 E1], E7 as [E7 E8]. apply N.eqb_eq in E0, E1, E7, E8.
    rewrite (words64_eq 8 h Hl Hb) at 1. cbn [words64]. rewrite !dropN_dropN, app_nil_r. unfold head_bytes, hd_fld in *.
    change (8 * 0) with 0 in *. rewrite dropN_0 in E0. rewrite E0.
    change (8 * 1) with 8 in *. change (8 + 8) with 16 in *. change (8 * 2) with 16 in *. rewrite E1.
    change (8 * 3) with 24 in *. change (8 * 4) with 32 in *. change (8 * 5) with 40 in *. change (8 * 6) with 48 in *. change (8 * 7) with 56 in *.
    change (8 + 16) with 24. change (8 + 24) with 32. change (8 + 32) with 40. change (8 + 40) with 48. change (8 + 48) with 56.
    rewrite E7, E8. reflexivity.
  - intros ((Hf & H1 & H2 & H3 & H4) & ->). pose proof (normalized_known f true Hf) as [Hlt _].
    rewrite head_bytes_len. cbn [N.eqb negb]. unfold hd_fld.
    set (h := head_bytes f mi av ma).
    assert (F0 : rd64 (dropN (8 * 0) h) = 48) by (apply rd64_le64; reflexivity).
    assert (F1 : rd64 (dropN (8 * 1) h) = CA_FORMAT_INDEX) by (apply (rd64_le64 CA_FORMAT_INDEX (dropN 16 h)); reflexivity).
    assert (F2 : rd64 (dropN (8 * 2) h) = f) by (apply (rd64_le64 f (dropN 24 h)); exact Hlt).
    assert (F3 : rd64 (dropN (8 * 3) h) = mi) by (apply (rd64_le64 mi (dropN 32 h)); unfold two64; lia).
    assert (F4 : rd64 (dropN (8 * 4) h) = av) by (apply (rd64_le64 av (dropN 40 h)); unfold two64; lia).
    assert (F5 : rd64 (dropN (8 * 5) h) = ma) by (apply (rd64_le64 ma (dropN 48 h)); unfold two64; lia).
    assert (F6 : rd64 (dropN (8 * 6) h) = UINT64_MAX) by (apply (rd64_le64 UINT64_MAX (dropN 56 h)); reflexivity).
    assert (F7 : rd64 (dropN (8 * 7) h) = CA_FORMAT_TABLE) by (apply (rd64_le64 CA_FORMAT_TABLE []); reflexivity).
    change (64 =? 64) with true. cbn [negb].
    rewrite F0, F1, F2, F3, F4, F5, F6, F7, Hf, !N.eqb_refl. cbn [andb negb].
    destruct ((mi <? 1) || (134217728 <? mi)) eqn:G1; [lia|]. destruct ((av <? 1) || (134217728 <? av)) eqn:G2; [lia|].
    destruct ((ma <? 1) || (134217728 <? ma)) eqn:G3; [lia|]. destruct ((mi <=? av) && (av <=? ma)) eqn:G4; [|lia]. reflexivity.
Qed.

Definition opened (f mi av ma : N) (data : list N) (lim : N) : idx :=
  Idx CA_INDEX_READ f mi av ma 64 64 0 0 0 false UINT64_MAX true false data 64 (Some data) lim.

Definition fresh_reader (data : list N) (lim : N) : idx := index_new CA_INDEX_READ (Some data) lim.
Definition opened0 (data : list N) (lim : N) : idx :=
  Idx CA_INDEX_READ UINT64_MAX 0 0 0 0 0 0 0 0 false UINT64_MAX true false data 0 (Some data) lim.

Lemma open_read_eq data lim :
  index_open (fresh_reader data lim) =
  match head_check (takeN 64 data) with
  | Ok (f, mi, av, ma) => (Ok tt, upd_sizes mi av ma (upd_flags f (upd_offs 64 64 (upd_file data (len (takeN 64 data)) (opened0 data lim)))))
  | Err EAGAIN => (Ok tt, upd_file data (len (takeN 64 data)) (opened0 data lim))
  | Err e => (Err e, upd_file data (len (takeN 64 data)) (opened0 data lim))
  | Abort => (Abort, upd_file data (len (takeN 64 data)) (opened0 data lim))
  | UB => (UB, upd_file data (len (takeN 64 data)) (opened0 data lim))
  end.
Proof.
  unfold index_open.
  assert (O : index_open_fd (fresh_reader data lim) = (Ok tt, opened0 data lim)) by reflexivity.
  rewrite (bind_ok _ _ _ _ _ O). unfold bindM.
  rewrite (read_head_eq (opened0 data lim)); [|reflexivity..]. cbn [x_data x_fpos opened0]. unfold file_pread. rewrite dropN_0.
  rewrite N.add_0_l. destruct (head_check (takeN 64 data)) as [[[[f mi] av] ma]|e| |]; try reflexivity.
  destruct e; reflexivity.
Qed.

Lemma head_check_not_again h : head_check h <> Err EAGAIN.
Proof.
  unfold head_check, feature_flags_are_normalized.
  repeat match goal with |- context [if ?c then _ else _] => destruct c end; try discriminate.
Qed.

Lemma open_read_ok data lim s : bytes_ok data = true ->
  (index_open (fresh_reader data lim) = (Ok tt, s) <->
   exists f mi av ma rest, params_ok f mi av ma /\ data = head_bytes f mi av ma ++ rest /\ s = opened f mi av ma data lim).
Proof.
  intros Hb. rewrite open_read_eq. split.
  - pose proof (head_check_not_again (takeN 64 data)) as NA.
    destruct (head_check (takeN 64 data)) as [[[[f mi] av] ma]|e| |] eqn:E; try discriminate.
    + apply head_check_spec in E as [P E]; [|apply bytes_ok_takeN, Hb]. intros X.
      exists f, mi, av, ma, (dropN 64 data). split; [exact P|]. split; [rewrite <- E; symmetry; apply takeN_dropN|].
      rewrite E, head_bytes_len in X. cbn in X. unfold opened. congruence.
    + destruct e; try discriminate. congruence.
  - intros (f & mi & av & ma & rest & P & E & ->).
    assert (T : takeN 64 data = head_bytes f mi av ma) by (rewrite E; apply takeN_app_exact; reflexivity).
    assert (C : head_check (takeN 64 data) = Ok (f, mi, av, ma)) by (apply head_check_spec; [apply bytes_ok_takeN, Hb|auto]).
    rewrite C, T, head_bytes_len. reflexivity.
Qed.

(** Reading opens first; on an open index that does nothing. *)
Lemma read_chunk_open s s1 : index_open s = (Ok tt, s1) -> index_open s1 = (Ok tt, s1) -> index_read_chunk s = index_read_chunk s1.
Proof. intros H1 H2. unfold index_read_chunk. rewrite (bind_ok _ _ _ _ _ H1), (bind_ok _ _ _ _ _ H2). reflexivity. Qed.

Lemma opened_reading f mi av ma data lim : reading data ma 0 0 (opened f mi av ma data lim).
Proof. unfold reading, opened. cbn. repeat split. Qed.
