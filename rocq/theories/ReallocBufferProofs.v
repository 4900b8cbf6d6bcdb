(** Proofs about ReallocBuffer.v. *)
From Verif Require Import Base ReallocBuffer.
Local Open Scope N_scope.

Definition env_good (e : env) : Prop := exists k, k <= 30 /\ env_page e = 2 ^ k.

(** The invariant: live range within the block, block as large as recorded. *)
Definition rb_inv (b : rbuf) : Prop :=
  rb_start b <= rb_end b /\ rb_end b <= rb_alloc b /\ len (rb_mem b) = rb_alloc b /\ rb_alloc b < 2 ^ 63.
(** The byte string a buffer stands for. *)
Definition rb_abs (b : rbuf) : list N := takeN (rb_end b - rb_start b) (dropN (rb_start b) (rb_mem b)).

Lemma rb_mem_some d a s e : rb_mem (mkRB (Some d) a s e) = d.
Proof. reflexivity. Qed.

Lemma len_fresh j n : len (fresh j n) = n.
Proof. unfold len, fresh. rewrite map_length, seq_length. lia. Qed.
Lemma len_repeat {A} (x : A) n : len (repeat x (N.to_nat n)) = n.
Proof. unfold len. rewrite repeat_length. lia. Qed.

Lemma rb_inv_sane b : rb_inv b -> rb_sane b = true.
Proof.
  intros (A & B & C & D). unfold rb_sane.
  rewrite (proj2 (N.leb_le _ _) A), (proj2 (N.leb_le _ _) B). cbn [andb].
  destruct (rb_data b) eqn:E; [reflexivity|]. unfold rb_mem in C. rewrite E, len_nil in C. apply N.eqb_eq. lia.
Qed.
Lemma rb_size_ok b : rb_inv b -> rb_size b = Ok (rb_end b - rb_start b).
Proof. intros H. unfold rb_size. rewrite rb_inv_sane by exact H. reflexivity. Qed.
Lemma len_abs b : rb_inv b -> len (rb_abs b) = rb_end b - rb_start b.
Proof. intros (A & B & C & D). unfold rb_abs. rewrite len_takeN, len_dropN, C. lia. Qed.
Lemma rb_size_abs b : rb_inv b -> rb_size b = Ok (len (rb_abs b)).
Proof. intros H. rewrite rb_size_ok, len_abs by exact H. reflexivity. Qed.

Lemma peek_ok b n : rb_inv b -> n <= len (rb_abs b) -> peek b (rb_start b) n = Ok (takeN n (rb_abs b)).
Proof.
  intros H Hn. pose proof (len_abs b H) as HL. rewrite HL in Hn. destruct H as (A & B & C & D). unfold peek.
  destruct (N.eqb_spec n 0) as [-> | Hz]; [reflexivity|].
  rewrite (proj2 (N.leb_le _ _)) by lia. f_equal. unfold rb_abs. rewrite takeN_takeN. f_equal. lia.
Qed.
Lemma rb_view_ok b : rb_inv b -> rb_view b = Ok (rb_abs b).
Proof. intros H. unfold rb_view. rewrite rb_size_abs by exact H. cbn [bind]. rewrite peek_ok by (auto; lia).
  rewrite takeN_all by lia. reflexivity. Qed.

Lemma takeN_dropN_comm {A} k n (l : list A) : takeN n (dropN k l) = dropN k (takeN (n + k) l).
Proof. unfold takeN, dropN. rewrite firstn_skipn_comm. f_equal. f_equal. lia. Qed.
Lemma dropN_takeN {A} k n (l : list A) : dropN k (takeN n l) = takeN (n - k) (dropN k l).
Proof.
  destruct (N.le_gt_cases k n) as [H|H].
  - rewrite takeN_dropN_comm. f_equal. f_equal. lia.
  - replace (n - k) with 0 by lia. rewrite takeN_0. apply dropN_all. rewrite len_takeN. lia.
Qed.

Lemma poke_ok b k bs : rb_inv b -> k + len bs <= len (rb_abs b) ->
  exists b', poke b (rb_start b + k) bs = Ok b' /\ rb_inv b' /\ rb_start b' = rb_start b /\ rb_end b' = rb_end b /\
  rb_alloc b' = rb_alloc b /\
  rb_abs b' = takeN k (rb_abs b) ++ bs ++ dropN (k + len bs) (rb_abs b).
Proof.
  intros H Hk. pose proof (len_abs b H) as HL. rewrite HL in Hk. pose proof H as (A & B & C & D). unfold poke.
  destruct (N.eqb_spec (len bs) 0) as [Hz|Hz].
  { exists b. split; [reflexivity|]. repeat split; try assumption. rewrite Hz, (len_zero_nil bs Hz).
    cbn [app]. rewrite N.add_0_r, takeN_dropN. reflexivity. }
  rewrite (proj2 (N.leb_le _ _)) by lia.
  eexists. split; [reflexivity|].
  assert (HM : len (takeN (rb_start b + k) (rb_mem b) ++ bs ++ dropN (rb_start b + k + len bs) (rb_mem b)) = rb_alloc b)
    by (rewrite !len_app, len_takeN, len_dropN, C; lia).
  unfold rb_inv, rb_abs, rb_mem; cbn [rb_data rb_start rb_end rb_alloc].
  fold (rb_mem b). rewrite HM. repeat split; try lia.
  rewrite dropN_app_le by (rewrite len_takeN, C; lia).
  rewrite dropN_takeN. replace (rb_start b + k - rb_start b) with k by lia.
  rewrite takeN_app_ge by (rewrite len_takeN, len_dropN, C; lia).
  rewrite len_takeN, len_dropN, C.
  replace (N.min k (rb_alloc b - rb_start b)) with k by lia.
  f_equal; [rewrite takeN_takeN; f_equal; lia|].
  rewrite takeN_app_ge by lia. f_equal.
  rewrite dropN_takeN, dropN_dropN. f_equal; [lia|]. f_equal. lia.
Qed.

Lemma align_bounds x k : x <= 2 ^ 31 -> k <= 30 -> x <= ALIGN_TO x (2 ^ k) /\ ALIGN_TO x (2 ^ k) < 2 ^ 32.
Proof.
  intros Hx Hk. unfold ALIGN_TO, addw.
  assert (P : 0 < 2 ^ k) by (apply N.neq_0_lt_0, N.pow_nonzero; lia).
  assert (P2 : 2 ^ k <= 2 ^ 30) by (apply N.pow_le_mono_r; lia).
  replace (2 ^ k - 1) with (N.ones k) by (rewrite N.ones_equiv; lia).
  rewrite N.ldiff_ones_r, N.shiftl_mul_pow2, N.shiftr_div_pow2. rewrite N.ones_equiv.
  change (2^31) with 2147483648 in *. change (2^30) with 1073741824 in *. change (2^32) with 4294967296 in *.
  unfold two64. rewrite N.mod_small by lia.
  pose proof (N.div_mod (x + N.pred (2^k)) (2^k)) as E. pose proof (N.mod_lt (x + N.pred (2^k)) (2^k)) as M.
  specialize (E ltac:(lia)). specialize (M ltac:(lia)).
  set (q := (x + N.pred (2 ^ k)) / 2 ^ k) in *. set (mm := (x + N.pred (2 ^ k)) mod 2 ^ k) in *.
  clearbody q mm. set (t := 2 ^ k) in *. clearbody t. rewrite (N.mul_comm q t). lia.
Qed.

(** What acquire does. *)
Definition acq_fail (e : env) (n : N) : Prop := REALLOC_BUFFER_MAX < n \/ env_ok e = false.

Lemma addw_small a b : a + b < two64 -> addw a b = a + b.
Proof. intros. unfold addw. apply N.mod_small. assumption. Qed.
Lemma addw_lt a b : addw a b < two64.
Proof. unfold addw. apply N.mod_lt. discriminate. Qed.

Lemma grow_size e b size : env_good e -> size <= REALLOC_BUFFER_MAX ->
  let na := (rb_alloc b * 2) mod two64 in
  let na := if REALLOC_BUFFER_MAX <? na then REALLOC_BUFFER_MAX else na in
  let ns := ALIGN_TO (N.max na size) (env_page e) in size <= ns /\ ns < 2 ^ 32.
Proof.
  intros (k & Hk & ->) Hs. cbv zeta.
  set (na := if REALLOC_BUFFER_MAX <? (rb_alloc b * 2) mod two64 then REALLOC_BUFFER_MAX else (rb_alloc b * 2) mod two64).
  assert (na <= REALLOC_BUFFER_MAX) by (unfold na; destruct (N.ltb_spec REALLOC_BUFFER_MAX ((rb_alloc b * 2) mod two64)); lia).
  clearbody na. unfold REALLOC_BUFFER_MAX in *.
  destruct (align_bounds (N.max na size) k) as [A B]; [change (2^31) with 2147483648; lia|exact Hk|].
  split; lia.
Qed.

Lemma acquire_ok e b size : rb_inv b -> env_good e -> size < two64 ->
  exists r b', rb_acquire e b size = Ok (r, b') /\ rb_inv b' /\
  match r with
  | None => b' = b /\ acq_fail e size
  | Some p => p = rb_start b' /\ size <= REALLOC_BUFFER_MAX /\ len (rb_abs b') = size /\
      takeN (N.min size (len (rb_abs b))) (rb_abs b') = takeN size (rb_abs b)
  end.
Proof.
  intros H He Hs. pose proof H as (A & B & C & D). unfold rb_acquire.
  destruct (N.eqb_spec size 0) as [-> | Hz].
  { exists (Some 0), (mkRB (rb_data b) (rb_alloc b) 0 0). split; [reflexivity|].
    assert (I : rb_inv (mkRB (rb_data b) (rb_alloc b) 0 0)).
    { unfold rb_inv, rb_mem; cbn [rb_start rb_end rb_alloc rb_data]. fold (rb_mem b). repeat split; lia. }
    split; [exact I|]. split; [reflexivity|]. split; [unfold REALLOC_BUFFER_MAX; lia|]. rewrite len_abs by exact I. split; [reflexivity|]. rewrite N.min_0_l. reflexivity. }
  destruct (N.ltb_spec REALLOC_BUFFER_MAX size) as [Hm|Hm].
  { exists None, b. split; [reflexivity|]. split; [exact H|]. split; [reflexivity|]. left; exact Hm. }
  assert (E : addw (rb_start b) size = rb_start b + size).
  { apply addw_small. unfold REALLOC_BUFFER_MAX in Hm. unfold two64. change (2^63) with 9223372036854775808 in D. lia. }
  rewrite E. rewrite (proj2 (N.ltb_ge _ _)) by lia.
  destruct (N.leb_spec (rb_start b + size) (rb_alloc b)) as [Hf|Hf].
  { eexists (Some _), _. split; [reflexivity|].
    assert (I : rb_inv (mkRB (rb_data b) (rb_alloc b) (rb_start b) (rb_start b + size))).
    { unfold rb_inv, rb_mem; cbn [rb_start rb_end rb_alloc rb_data]. fold (rb_mem b). repeat split; lia. }
    split; [exact I|]. split; [reflexivity|]. split; [exact Hm|]. rewrite len_abs by exact I. cbn [rb_end rb_start].
    split; [lia|]. rewrite len_abs by exact H. unfold rb_abs at 1. cbn [rb_end rb_start]. unfold rb_mem; cbn [rb_data]. fold (rb_mem b).
    unfold rb_abs. rewrite !takeN_takeN. f_equal. lia. }
  pose proof (grow_size e b size He Hm) as Hg. cbv zeta in Hg.
  replace ((rb_alloc b * 2) mod two64) with (rb_alloc b * 2) in * by
    (symmetry; apply N.mod_small; unfold two64; change (2^63) with 9223372036854775808 in D; lia).
  rewrite (proj2 (N.ltb_ge (rb_alloc b * 2) _)) by lia.
  set (ns := ALIGN_TO _ _) in *. clearbody ns. destruct Hg as [G1 G2].
  change (2^32) with 4294967296 in G2.
  destruct (N.eqb_spec (rb_start b) 0) as [S0|S0].
  - destruct (env_ok e) eqn:Eo; cbn [negb].
    2:{ exists None, b. split; [reflexivity|]. split; [exact H|]. split; [reflexivity|]. right; exact Eo. }
    eexists (Some 0), _. split; [reflexivity|].
    assert (LM : len (realloc_mem e (rb_mem b) ns) = ns).
    { unfold realloc_mem. rewrite len_app, len_dropN, len_fresh, len_takeN. lia. }
    assert (I : rb_inv (mkRB (Some (realloc_mem e (rb_mem b) ns)) ns 0 size)).
    { unfold rb_inv. rewrite rb_mem_some. cbn [rb_start rb_end rb_alloc rb_data]. change (2^63) with 9223372036854775808. repeat split; lia. }
    split; [exact I|]. split; [reflexivity|]. split; [exact Hm|]. rewrite len_abs by exact I. cbn [rb_end rb_start].
    split; [lia|]. rewrite len_abs by exact H. unfold rb_abs. rewrite rb_mem_some. cbn [rb_end rb_start].
    rewrite S0, !N.sub_0_r, !dropN_0, !takeN_takeN. unfold realloc_mem.
    rewrite takeN_app_le by (rewrite len_takeN; lia). rewrite takeN_takeN. f_equal. lia.
  - destruct (env_ok e) eqn:Eo; cbn [negb].
    2:{ exists None, b. split; [reflexivity|]. split; [exact H|]. split; [reflexivity|]. right; exact Eo. }
    rewrite rb_size_abs by exact H. cbn [bind]. rewrite peek_ok by (auto; lia). cbn [bind].
    rewrite takeN_all by lia.
    set (b0 := mkRB (Some (fresh (env_junk e) ns)) ns 0 size).
    assert (I : rb_inv b0).
    { unfold rb_inv, b0, rb_mem; cbn [rb_start rb_end rb_alloc rb_data]. rewrite len_fresh. change (2^63) with 9223372036854775808. repeat split; lia. }
    assert (L0 : len (rb_abs b0) = size) by (rewrite len_abs by exact I; cbn; lia).
    destruct (poke_ok b0 0 (rb_abs b) I) as (b' & P & I' & P1 & P2 & P3 & P4).
    { rewrite L0, len_abs by exact H. lia. }
    cbn [rb_start b0] in P. rewrite N.add_0_l in P. rewrite P. cbn [bind]. exists (Some 0), b'.
    split; [reflexivity|]. split; [exact I'|]. split; [rewrite P1; reflexivity|]. split; [exact Hm|].
    split; [rewrite len_abs, P1, P2 by exact I'; cbn; lia|].
    rewrite P4, takeN_0. cbn [app].
    pose proof (len_abs b H). rewrite (takeN_all size) by lia. rewrite N.min_r by lia. apply takeN_app_exact. reflexivity.
Qed.

Lemma extend_ok e b add : rb_inv b -> env_good e -> add < two64 ->
  exists r b', rb_extend e b add = Ok (r, b') /\ rb_inv b' /\
  match r with
  | None => b' = b /\ acq_fail e (len (rb_abs b) + add)
  | Some p => p = rb_start b' + len (rb_abs b) /\ len (rb_abs b) + add <= REALLOC_BUFFER_MAX /\
       exists j, len j = add /\ rb_abs b' = rb_abs b ++ j
  end.
Proof.
  intros H He Ha. unfold rb_extend. rewrite rb_size_abs by exact H. cbn [bind].
  pose proof (len_abs b H) as L. pose proof H as (A & B & C & D). change (2^63) with 9223372036854775808 in D.
  destruct (N.ltb_spec (addw (len (rb_abs b)) add) (len (rb_abs b))) as [Hw|Hw].
  { exists None, b. split; [reflexivity|]. split; [exact H|]. split; [reflexivity|]. left.
    assert (~ len (rb_abs b) + add < two64). { intros Hs. rewrite addw_small in Hw by exact Hs. lia. }
    unfold REALLOC_BUFFER_MAX, two64 in *. lia. }
  assert (Hs : len (rb_abs b) + add < two64).
  { destruct (N.le_gt_cases two64 (len (rb_abs b) + add)) as [Hc|Hc]; [|exact Hc]. exfalso.
    unfold addw in Hw.
    replace (len (rb_abs b) + add) with (len (rb_abs b) + add - two64 + 1 * two64) in Hw by (unfold two64 in *; lia).
    rewrite N.mod_add in Hw by discriminate. rewrite N.mod_small in Hw; unfold two64 in *; lia. }
  rewrite addw_small by exact Hs.
  destruct (acquire_ok e b (len (rb_abs b) + add) H He Hs) as (r & b' & P & I & Q). rewrite P. cbn [bind].
  destruct r as [p|].
  - destruct Q as (Q1 & Q0 & Q2 & Q3). exists (Some (p + len (rb_abs b))), b'. split; [reflexivity|]. split; [exact I|].
    split; [rewrite Q1; reflexivity|]. split; [exact Q0|]. exists (dropN (len (rb_abs b)) (rb_abs b')). split; [rewrite len_dropN, Q2; lia|].
    rewrite N.min_r in Q3 by lia. rewrite (takeN_all (_ + _)) in Q3 by lia.
    transitivity (takeN (len (rb_abs b)) (rb_abs b') ++ dropN (len (rb_abs b)) (rb_abs b')); [symmetry; apply takeN_dropN|].
    rewrite Q3. reflexivity.
  - destruct Q as (-> & Q). exists None, b. split; [reflexivity|]. split; [exact H|]. split; [reflexivity|exact Q].
Qed.

Lemma fill_ok b b' k bs q : rb_inv b' -> rb_abs b' = rb_abs b ++ q -> k = rb_start b' + len (rb_abs b) -> len bs <= len q ->
  exists b'', poke b' k bs = Ok b'' /\ rb_inv b'' /\ rb_abs b'' = rb_abs b ++ bs ++ dropN (len bs) q.
Proof.
  intros I E -> L. destruct (poke_ok b' (len (rb_abs b)) bs I) as (b'' & P & I' & _ & _ & _ & P4).
  { rewrite E, len_app. lia. }
  exists b''. split; [exact P|]. split; [exact I'|]. rewrite P4, E.
  rewrite takeN_app_exact by reflexivity. f_equal. f_equal. rewrite dropN_app_ge by lia. f_equal. lia.
Qed.

Lemma append_ok e b bs : rb_inv b -> env_good e -> len bs < two64 ->
  exists r b', rb_append e b bs = Ok (r, b') /\ rb_inv b' /\
  match r with
  | None => b' = b /\ acq_fail e (len (rb_abs b) + len bs)
  | Some p => p = rb_start b' + len (rb_abs b) /\ len (rb_abs b) + len bs <= REALLOC_BUFFER_MAX /\ rb_abs b' = rb_abs b ++ bs
  end.
Proof.
  intros H He Hl. unfold rb_append. destruct (extend_ok e b (len bs) H He Hl) as (r & b' & P & I & Q). rewrite P. cbn [bind].
  destruct r as [p|].
  - destruct Q as (-> & Q0 & j & Lj & Q).
    destruct (poke_ok b' (len (rb_abs b)) bs I) as (b'' & P' & I' & S1 & _ & _ & P4); [rewrite Q, len_app; lia|].
    rewrite P'. cbn [bind]. eexists (Some _), b''. split; [reflexivity|]. split; [exact I'|]. rewrite S1.
    split; [reflexivity|]. split; [exact Q0|]. rewrite P4, Q. rewrite takeN_app_exact by reflexivity. f_equal.
    rewrite dropN_all by (rewrite len_app; lia). apply app_nil_r.
  - exists None, b'. split; [reflexivity|]. split; [exact I|exact Q].
Qed.

Lemma rb_empty_ok b : rb_inv b -> rb_inv (rb_empty b) /\ rb_abs (rb_empty b) = [].
Proof. intros (A & B & C & D). split; [|reflexivity].
  unfold rb_inv, rb_empty, rb_mem; cbn [rb_start rb_end rb_alloc rb_data]. fold (rb_mem b). repeat split; lia. Qed.

Lemma advance_ok b sz : rb_inv b -> sz < two64 ->
  exists r b', rb_advance b sz = Ok (r, b') /\ rb_inv b' /\
  (if len (rb_abs b) <? sz then r = Some EINVAL /\ b' = b else r = None /\ rb_abs b' = dropN sz (rb_abs b)).
Proof.
  intros H Hs. pose proof H as (A & B & C & D). change (2^63) with 9223372036854775808 in D. unfold rb_advance.
  rewrite len_abs by exact H.
  destruct (N.eqb_spec sz 0) as [-> | Hz].
  { exists None, b. split; [reflexivity|]. split; [exact H|]. rewrite (proj2 (N.ltb_ge _ _)) by lia. split; reflexivity. }
  destruct (N.le_gt_cases two64 (rb_start b + sz)) as [Hc|Hc].
  { assert (E : addw (rb_start b) sz < rb_start b).
    { unfold addw. replace (rb_start b + sz) with (rb_start b + sz - two64 + 1 * two64) by (unfold two64 in *; lia).
      rewrite N.mod_add by discriminate. rewrite N.mod_small; unfold two64 in *; lia. }
    rewrite (proj2 (N.ltb_lt _ _) E). exists (Some EINVAL), b. split; [reflexivity|]. split; [exact H|].
    rewrite (proj2 (N.ltb_lt _ _)) by (unfold two64 in *; lia). split; reflexivity. }
  rewrite addw_small by exact Hc. rewrite (proj2 (N.ltb_ge (rb_start b + sz) _)) by lia.
  destruct (N.ltb_spec (rb_end b) (rb_start b + sz)) as [He|He].
  { exists (Some EINVAL), b. split; [reflexivity|]. split; [exact H|]. rewrite (proj2 (N.ltb_lt _ _)) by lia. split; reflexivity. }
  rewrite (proj2 (N.ltb_ge (rb_end b - rb_start b) _)) by lia.
  destruct (N.eqb_spec (rb_start b + sz) (rb_end b)) as [Hq|Hq].
  - exists None, (rb_empty b). destruct (rb_empty_ok b H) as [I E]. split; [reflexivity|]. split; [exact I|]. split; [reflexivity|].
    rewrite E. symmetry. apply dropN_all. rewrite len_abs by exact H. lia.
  - eexists None, _. split; [reflexivity|].
    split. { unfold rb_inv, rb_mem; cbn [rb_start rb_end rb_alloc rb_data]. fold (rb_mem b). repeat split; lia. }
    split; [reflexivity|]. unfold rb_abs; cbn [rb_start rb_end]. unfold rb_mem at 1; cbn [rb_data]. fold (rb_mem b).
    rewrite dropN_takeN, dropN_dropN. f_equal; [lia|]. f_equal. lia.
Qed.

Lemma shorten_ok b sz : rb_inv b ->
  exists r b', rb_shorten b sz = Ok (r, b') /\ rb_inv b' /\
  (if len (rb_abs b) <? sz then r = Some EINVAL /\ b' = b else r = None /\ rb_abs b' = takeN (len (rb_abs b) - sz) (rb_abs b)).
Proof.
  intros H. pose proof H as (A & B & C & D). unfold rb_shorten. rewrite rb_size_abs by exact H. cbn [bind].
  destruct (N.ltb_spec (len (rb_abs b)) sz) as [Hl|Hl].
  { exists (Some EINVAL), b. split; [reflexivity|]. split; [exact H|]. split; reflexivity. }
  rewrite len_abs in * by exact H.
  destruct (N.eqb_spec sz 0) as [-> | Hz].
  { exists None, b. split; [reflexivity|]. split; [exact H|]. split; [reflexivity|]. rewrite takeN_all; [reflexivity|]. rewrite len_abs by exact H. lia. }
  cbn [rb_end rb_start].
  assert (I : rb_inv (mkRB (rb_data b) (rb_alloc b) (rb_start b) (rb_end b - sz))).
  { unfold rb_inv, rb_mem; cbn [rb_start rb_end rb_alloc rb_data]. fold (rb_mem b). repeat split; lia. }
  destruct (N.eqb_spec (rb_end b - sz) (rb_start b)) as [Hq|Hq].
  - destruct (rb_empty_ok _ I) as [I' E]. eexists None, _. split; [reflexivity|]. split; [exact I'|]. split; [reflexivity|].
    rewrite E. symmetry. replace (rb_end b - rb_start b - sz) with 0 by lia. reflexivity.
  - eexists None, _. split; [reflexivity|]. split; [exact I|]. split; [reflexivity|].
    unfold rb_abs; cbn [rb_start rb_end]. unfold rb_mem at 1; cbn [rb_data]. fold (rb_mem b). rewrite takeN_takeN. f_equal. lia.
Qed.

Lemma truncate_ok b sz : rb_inv b -> sz < two64 ->
  exists r b', rb_truncate b sz = Ok (r, b') /\ rb_inv b' /\
  (if len (rb_abs b) <? sz then r = Some EINVAL /\ b' = b else r = None /\ rb_abs b' = takeN sz (rb_abs b)).
Proof.
  intros H Hs. pose proof H as (A & B & C & D). change (2^63) with 9223372036854775808 in D. unfold rb_truncate.
  destruct (N.eqb_spec sz 0) as [-> | Hz].
  { destruct (rb_empty_ok b H) as [I E]. eexists None, _. split; [reflexivity|]. split; [exact I|].
    rewrite (proj2 (N.ltb_ge _ _)) by lia. split; [reflexivity|exact E]. }
  rewrite rb_size_abs by exact H. cbn [bind].
  destruct (N.ltb_spec (len (rb_abs b)) sz) as [Hl|Hl].
  { exists (Some EINVAL), b. split; [reflexivity|]. split; [exact H|]. split; reflexivity. }
  rewrite len_abs in * by exact H. rewrite addw_small by (unfold two64; lia).
  eexists None, _. split; [reflexivity|].
  split. { unfold rb_inv, rb_mem; cbn [rb_start rb_end rb_alloc rb_data]. fold (rb_mem b). change (2^63) with 9223372036854775808. repeat split; lia. }
  split; [reflexivity|]. unfold rb_abs; cbn [rb_start rb_end]. unfold rb_mem at 1; cbn [rb_data]. fold (rb_mem b). rewrite takeN_takeN. f_equal. lia.
Qed.

(** The data one read() call delivers: all of what the kernel has, unless that is more than asked for. *)
Definition delivers (r : sysread) (d : list N) : Prop :=
  exists d0 n, r = RData d0 /\ BUFFER_SIZE <= n /\ d = takeN n d0.

Definition readsz (add : option N) : N := match add with None => BUFFER_SIZE | Some a => if a <? BUFFER_SIZE then BUFFER_SIZE else a end.

Lemma read_size_ok e b r add : rb_inv b -> env_good e -> readsz add < two64 ->
  exists o b', rb_read_size e b r add = Ok (o, b') /\ rb_inv b' /\
  match o with
  | inl err => rb_abs b' = rb_abs b /\ (r = RErr err \/ (err = ENOMEM /\ acq_fail e (len (rb_abs b) + readsz add)))
  | inr more => exists d, delivers r d /\ rb_abs b' = rb_abs b ++ d /\ more = (0 <? len d) /\
                  len d <= readsz add /\ (len (rb_abs b) + readsz add <= REALLOC_BUFFER_MAX)
  end.
Proof.
  intros H He Ha. unfold rb_read_size. change (match add with Some a => _ | None => _ end) with (readsz add).
  set (n := readsz add) in *.
  assert (HB : BUFFER_SIZE <= n).
  { unfold n, readsz. destruct add as [a|]; [|lia]. destruct (N.ltb_spec a BUFFER_SIZE); lia. }
  clearbody n.
  destruct (extend_ok e b n H He Ha) as (o & b' & P & I & Q). rewrite P. cbn [bind].
  destruct o as [p|].
  2:{ destruct Q as (-> & Q). exists (inl ENOMEM), b. split; [reflexivity|]. split; [exact H|]. split; [reflexivity|]. right. split; [reflexivity|exact Q]. }
  destruct Q as (-> & Q0 & j & Lj & Q).
  destruct r as [d|err].
  - destruct (fill_ok b b' _ (takeN n d) j I Q eq_refl) as (b'' & P' & I' & E'); [rewrite len_takeN; lia|].
    rewrite P'. cbn [bind].
    destruct (shorten_ok b'' (n - len (takeN n d)) I') as (r3 & b3 & P3 & I3 & Q3). rewrite P3. cbn [bind].
    assert (L'' : len (rb_abs b'') = len (rb_abs b) + n).
    { rewrite E', !len_app, len_dropN, Lj, len_takeN. lia. }
    rewrite L'' in Q3. rewrite (proj2 (N.ltb_ge _ _)) in Q3 by lia. destruct Q3 as [-> Q3].
    eexists (inr _), b3. split; [reflexivity|]. split; [exact I3|]. exists (takeN n d).
    split; [exists d, n; auto|]. split.
    { rewrite Q3, E'. rewrite app_assoc. apply takeN_app_exact. rewrite len_app, len_takeN. lia. }
    split; [reflexivity|]. split; [rewrite len_takeN; lia|exact Q0].
  - destruct (shorten_ok b' n I) as (r3 & b3 & P3 & I3 & Q3). rewrite P3. cbn [bind].
    rewrite Q, len_app, Lj in Q3. rewrite (proj2 (N.ltb_ge _ _)) in Q3 by lia. destruct Q3 as [-> Q3].
    exists (inl err), b3. split; [reflexivity|]. split; [exact I3|]. split; [|left; reflexivity].
    rewrite Q3. apply takeN_app_exact. lia.
Qed.
