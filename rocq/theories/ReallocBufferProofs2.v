(** The buffer refines the byte string of ReallocBufferSpec.v. *)
From Verif Require Import Base ReallocBuffer ReallocBufferProofs ReallocBufferSpec.
Local Open Scope N_scope.

Lemma acquire0_ok e b size : rb_inv b -> env_good e -> size < two64 ->
  exists r b', rb_acquire0 e b size = Ok (r, b') /\ rb_inv b' /\
  match r with
  | None => b' = b /\ acq_fail e size
  | Some p => rb_abs b' = repeat 0 (N.to_nat size)
  end.
Proof.
  intros H He Hs. pose proof H as (A & B & C & D). unfold rb_acquire0.
  destruct (N.eqb_spec size 0) as [-> | Hz].
  { exists (Some 0), (rb_empty b). destruct (rb_empty_ok b H) as [I E]. split; [reflexivity|]. split; [exact I|]. exact E. }
  destruct (N.ltb_spec REALLOC_BUFFER_MAX size) as [Hm|Hm].
  { exists None, b. split; [reflexivity|]. split; [exact H|]. split; [reflexivity|]. left; exact Hm. }
  destruct (N.ltb_spec size (rb_alloc b)) as [Hf|Hf].
  { unfold poke. rewrite len_repeat. rewrite (proj2 (N.eqb_neq _ _) Hz). rewrite N.add_0_l.
    rewrite (proj2 (N.leb_le _ _)) by lia. cbn [bind rb_data rb_alloc].
    eexists (Some 0), _. split; [reflexivity|]. rewrite takeN_0. cbn [app].
    assert (L : len (repeat 0 (N.to_nat size) ++ dropN size (rb_mem b)) = rb_alloc b).
    { rewrite len_app, len_repeat, len_dropN. lia. }
    split.
    - unfold rb_inv. rewrite rb_mem_some. cbn [rb_start rb_end rb_alloc]. repeat split; lia.
    - unfold rb_abs. rewrite rb_mem_some. cbn [rb_start rb_end]. rewrite N.sub_0_r, dropN_0.
      apply takeN_app_exact. apply len_repeat. }
  pose proof (grow_size e b size He Hm) as Hg. cbv zeta in Hg.
  change (2^63) with 9223372036854775808 in D.
  replace ((rb_alloc b * 2) mod two64) with (rb_alloc b * 2) in * by (symmetry; apply N.mod_small; unfold two64; lia).
  rewrite (proj2 (N.ltb_ge (rb_alloc b * 2) _)) by lia.
  set (ns := ALIGN_TO _ _) in *. clearbody ns. destruct Hg as [G1 G2]. change (2^32) with 4294967296 in G2.
  destruct (env_ok e) eqn:Eo; cbn [negb].
  2:{ exists None, b. split; [reflexivity|]. split; [exact H|]. split; [reflexivity|]. right; exact Eo. }
  eexists (Some 0), _. split; [reflexivity|]. split.
  - unfold rb_inv. rewrite rb_mem_some, len_repeat. cbn [rb_start rb_end rb_alloc]. change (2^63) with 9223372036854775808. repeat split; lia.
  - unfold rb_abs. rewrite rb_mem_some. cbn [rb_start rb_end]. rewrite N.sub_0_r, dropN_0.
    replace (N.to_nat ns) with (N.to_nat size + N.to_nat (ns - size))%nat by lia. rewrite repeat_app.
    apply takeN_app_exact. apply len_repeat.
Qed.

Lemma extend0_ok e b add : rb_inv b -> env_good e -> add < two64 ->
  exists r b', rb_extend0 e b add = Ok (r, b') /\ rb_inv b' /\
  match r with
  | None => b' = b /\ acq_fail e (len (rb_abs b) + add)
  | Some p => rb_abs b' = rb_abs b ++ repeat 0 (N.to_nat add)
  end.
Proof.
  intros H He Hl. unfold rb_extend0. destruct (extend_ok e b add H He Hl) as (r & b' & P & I & Q). rewrite P. cbn [bind].
  destruct r as [p|].
  - destruct Q as (-> & Q0 & j & Lj & Q).
    destruct (fill_ok b b' _ (repeat 0 (N.to_nat add)) j I Q eq_refl) as (b'' & P' & I' & E'); [rewrite len_repeat; lia|].
    rewrite P'. cbn [bind]. eexists (Some _), b''. split; [reflexivity|]. split; [exact I'|]. rewrite E'.
    rewrite len_repeat, dropN_all by lia. rewrite app_nil_r. reflexivity.
  - exists None, b'. split; [reflexivity|]. split; [exact I|exact Q].
Qed.

Lemma delivers_got r d : delivers r d -> got r d.
Proof.
  intros (d0 & n & -> & Hn & ->). exists d0. split; [reflexivity|]. exists (dropN n d0). split; [symmetry; apply takeN_dropN|].
  destruct (N.le_gt_cases (len d0) n) as [L|L]; [left; apply dropN_all, L|right].
  rewrite len_takeN. unfold BUFFER_SIZE in Hn. lia.
Qed.
Lemma got_nil r : got r [] -> r = RData [].
Proof. intros (d0 & -> & rest & -> & [-> | H]); [reflexivity|]. rewrite len_nil in H. lia. Qed.

Lemma no_mem_eq e n : acq_fail e n <-> no_memory e n.
Proof. reflexivity. Qed.

Lemma got_all_nil s : got_all s [] s.
Proof. exists []. split; [reflexivity|constructor]. Qed.
Lemma got_all_cons e x s d ds rest : got x d -> d <> [] -> got_all s ds rest -> got_all ((e, x) :: s) (d :: ds) rest.
Proof. intros G N (pre & -> & F). exists ((e, x) :: pre). split; [reflexivity|]. constructor; [split; assumption|exact F]. Qed.

Lemma len0_nil {A} (d : list A) : (0 <? len d) = false -> d = [].
Proof. intros H. apply len_zero_nil. lia. Qed.
Lemma lenpos_nil {A} (d : list A) : (0 <? len d) = true -> d <> [].
Proof. intros H E. subst d. cbv in H. discriminate. Qed.

Lemma read_full_ok script : forall b e0 limit, rb_inv b -> env_good e0 -> Forall (fun x => env_good (fst x)) script ->
  exists r b', rb_read_full b script e0 limit = Ok (r, b') /\ rb_inv b' /\
  exists ds rest, got_all script ds rest /\ rb_abs b' = rb_abs b ++ concat ds /\
   ((r = None /\ at_eof rest) \/
    (r = Some E2BIG /\ exists l, limit = Some l /\ l < len (rb_abs b')) \/
    (exists e err rest', r = Some err /\ rest = (e, RErr err) :: rest') \/
    (r = Some ENOMEM /\ exists e, In e (e0 :: map fst script) /\ no_memory e (len (rb_abs b') + 65536))).
Proof.
  induction script as [|[e s] script IH]; intros b e0 limit H He HF.
  - cbn [rb_read_full]. rewrite rb_size_abs by exact H. cbn [bind].
    destruct (match limit with Some l => l <? len (rb_abs b) | None => false end) eqn:El.
    { exists (Some E2BIG), b. split; [reflexivity|]. split; [exact H|]. exists [], []. split; [apply got_all_nil|].
      split; [rewrite app_nil_r; reflexivity|]. right. left. split; [reflexivity|]. destruct limit as [l|]; [|discriminate].
      exists l. split; [reflexivity|]. lia. }
    destruct (read_size_ok e0 b (RData []) None H He) as (o & b' & P & I & Q); [reflexivity|]. rewrite P. cbn [bind].
    destruct o as [err|more].
    + destruct Q as [Q [Q1|[-> Q2]]]; [discriminate|]. exists (Some ENOMEM), b'. split; [reflexivity|]. split; [exact I|].
      exists [], []. split; [apply got_all_nil|]. rewrite Q. split; [rewrite app_nil_r; reflexivity|].
      right; right; right. split; [reflexivity|]. exists e0. split; [left; reflexivity|exact Q2].
    + destruct Q as (d & Dv & Q & _). destruct Dv as (d0 & n & Ed & _ & ->). injection Ed as <-.
      exists None, b'. split; [reflexivity|]. split; [exact I|]. exists [], []. split; [apply got_all_nil|].
      split; [rewrite Q; unfold takeN; rewrite firstn_nil; reflexivity|]. left. split; [reflexivity|left; reflexivity].
  - cbn [rb_read_full]. rewrite rb_size_abs by exact H. cbn [bind].
    destruct (match limit with Some l => l <? len (rb_abs b) | None => false end) eqn:El.
    { exists (Some E2BIG), b. split; [reflexivity|]. split; [exact H|]. exists [], ((e,s)::script). split; [apply got_all_nil|].
      split; [rewrite app_nil_r; reflexivity|]. right. left. split; [reflexivity|]. destruct limit as [l|]; [|discriminate].
      exists l. split; [reflexivity|]. lia. }
    apply Forall_cons_iff in HF as [He1 HF]. cbn [fst] in He1.
    destruct (read_size_ok e b s None H He1) as (o & b' & P & I & Q); [reflexivity|]. rewrite P. cbn [bind].
    destruct o as [err|more].
    + destruct Q as [Q [-> |[-> Q2]]].
      * exists (Some err), b'. split; [reflexivity|]. split; [exact I|]. exists [], ((e,RErr err)::script). split; [apply got_all_nil|].
        rewrite Q. split; [rewrite app_nil_r; reflexivity|]. right; right; left. exists e, err, script. split; reflexivity.
      * exists (Some ENOMEM), b'. split; [reflexivity|]. split; [exact I|].
        exists [], ((e,s)::script). split; [apply got_all_nil|]. rewrite Q. split; [rewrite app_nil_r; reflexivity|].
        right; right; right. split; [reflexivity|]. exists e. split; [right; left; reflexivity|exact Q2].
    + destruct Q as (d & Dv & Q & Em & _). apply delivers_got in Dv. destruct more.
      * destruct (IH b' e0 limit I He HF) as (r & b2 & P2 & I2 & ds & rest & G & Q2 & R).
        exists r, b2. split; [exact P2|]. split; [exact I2|]. exists (d :: ds), rest.
        split; [apply got_all_cons; [exact Dv|apply lenpos_nil; auto|exact G]|]. split; [rewrite Q2, Q; cbn [concat]; rewrite app_assoc; reflexivity|].
        destruct R as [R|[R|[R|[R1 (e' & R2 & R3)]]]]; [left; exact R|right; left; exact R|right; right; left; exact R|].
        right; right; right. split; [exact R1|]. exists e'. split; [|exact R3]. cbn [map fst In] in *. tauto.
      * symmetry in Em. apply len0_nil in Em. subst d. apply got_nil in Dv. subst s.
        exists None, b'. split; [reflexivity|]. split; [exact I|]. exists [], ((e, RData []) :: script). split; [apply got_all_nil|].
        split; [exact Q|]. left. split; [reflexivity|]. right. exists e, script. reflexivity.
Qed.

Lemma readsz_max a : readsz (Some a) = N.max 65536 a.
Proof. unfold readsz, BUFFER_SIZE. destruct (N.ltb_spec a 65536); lia. Qed.

Lemma read_target_ok script : forall b e0 target, rb_inv b -> env_good e0 -> Forall (fun x => env_good (fst x)) script -> target < two64 ->
  exists r b', rb_read_target b script e0 target = Ok (r, b') /\ rb_inv b' /\
  exists ds rest, got_all script ds rest /\ rb_abs b' = rb_abs b ++ concat ds /\
   ((r = inr true /\ target <= len (rb_abs b')) \/
    (r = inr false /\ len (rb_abs b') < target /\ at_eof rest) \/
    (exists e err rest', r = inl err /\ rest = (e, RErr err) :: rest') \/
    (r = inl ENOMEM /\ exists e, In e (e0 :: map fst script) /\ no_memory e (len (rb_abs b') + N.max 65536 (target - len (rb_abs b'))))).
Proof.
  induction script as [|[e s] script IH]; intros b e0 target H He HF Ht.
  - cbn [rb_read_target]. rewrite rb_size_abs by exact H. cbn [bind].
    destruct (N.leb_spec target (len (rb_abs b))) as [El|El].
    { exists (inr true), b. split; [reflexivity|]. split; [exact H|]. exists [], []. split; [apply got_all_nil|].
      split; [rewrite app_nil_r; reflexivity|]. left. split; [reflexivity|exact El]. }
    destruct (read_size_ok e0 b (RData []) (Some (target - len (rb_abs b))) H He) as (o & b' & P & I & Q).
    { rewrite readsz_max. unfold two64 in *. lia. }
    rewrite P. rewrite readsz_max in Q.
    destruct o as [err|more].
    + destruct Q as [Q [Q1|[-> Q2]]]; [discriminate|]. exists (inl ENOMEM), b'. split; [reflexivity|]. split; [exact I|].
      exists [], []. split; [apply got_all_nil|]. rewrite Q. split; [rewrite app_nil_r; reflexivity|].
      right; right; right. split; [reflexivity|]. exists e0. split; [left; reflexivity|exact Q2].
    + destruct Q as (d & Dv & Q & -> & _). destruct Dv as (d0 & n & Ed & _ & ->). injection Ed as <-.
      assert (E : takeN n (@nil N) = []) by (unfold takeN; apply firstn_nil). rewrite E in *. rewrite app_nil_r in Q.
      exists (inr false), b'. split; [reflexivity|]. split; [exact I|]. exists [], []. split; [apply got_all_nil|].
      rewrite Q. split; [rewrite app_nil_r; reflexivity|]. right; left. split; [reflexivity|]. split; [lia|left; reflexivity].
  - cbn [rb_read_target]. rewrite rb_size_abs by exact H. cbn [bind].
    destruct (N.leb_spec target (len (rb_abs b))) as [El|El].
    { exists (inr true), b. split; [reflexivity|]. split; [exact H|]. exists [], ((e,s)::script). split; [apply got_all_nil|].
      split; [rewrite app_nil_r; reflexivity|]. left. split; [reflexivity|exact El]. }
    apply Forall_cons_iff in HF as [He1 HF]. cbn [fst] in He1.
    destruct (read_size_ok e b s (Some (target - len (rb_abs b))) H He1) as (o & b' & P & I & Q).
    { rewrite readsz_max. unfold two64 in *. lia. }
    rewrite P. rewrite readsz_max in Q. cbn [bind].
    destruct o as [err|more].
    + destruct Q as [Q [-> |[-> Q2]]].
      * exists (inl err), b'. split; [reflexivity|]. split; [exact I|]. exists [], ((e,RErr err)::script). split; [apply got_all_nil|].
        rewrite Q. split; [rewrite app_nil_r; reflexivity|]. right; right; left. exists e, err, script. split; reflexivity.
      * exists (inl ENOMEM), b'. split; [reflexivity|]. split; [exact I|].
        exists [], ((e,s)::script). split; [apply got_all_nil|]. rewrite Q. split; [rewrite app_nil_r; reflexivity|].
        right; right; right. split; [reflexivity|]. exists e. split; [right; left; reflexivity|exact Q2].
    + destruct Q as (d & Dv & Q & Em & _). apply delivers_got in Dv. destruct more.
      * destruct (IH b' e0 target I He HF Ht) as (r & b2 & P2 & I2 & ds & rest & G & Q2 & R).
        exists r, b2. split; [exact P2|]. split; [exact I2|]. exists (d :: ds), rest.
        split; [apply got_all_cons; [exact Dv|apply lenpos_nil; auto|exact G]|]. split; [rewrite Q2, Q; cbn [concat]; rewrite app_assoc; reflexivity|].
        destruct R as [R|[R|[R|[R1 (e' & R2 & R3)]]]]; [left; exact R|right; left; exact R|right; right; left; exact R|].
        right; right; right. split; [exact R1|]. exists e'. split; [|exact R3]. cbn [map fst In] in *. tauto.
      * symmetry in Em. apply len0_nil in Em. subst d. apply got_nil in Dv. subst s. rewrite app_nil_r in Q.
        exists (inr false), b'. split; [reflexivity|]. split; [exact I|]. exists [], ((e, RData []) :: script). split; [apply got_all_nil|].
        rewrite Q. split; [rewrite app_nil_r; reflexivity|]. right; left. split; [reflexivity|]. split; [lia|]. right. exists e, script. reflexivity.
Qed.

Lemma steal_ok e b : rb_inv b ->
  exists r b', rb_steal e b = Ok (r, b') /\ rb_inv b' /\
  match r with
  | None => rb_abs b' = rb_abs b /\ (rb_abs b = [] \/ env_ok e = false)
  | Some m => rb_abs b' = [] /\ exists rest, m = rb_abs b ++ rest
  end.
Proof.
  intros H. pose proof H as (A & B & C & D). unfold rb_steal.
  assert (I0 : rb_inv (mkRB None 0 0 0)) by (unfold rb_inv; cbn; repeat split; lia).
  destruct (N.eqb_spec (rb_start b) 0) as [S0|S0].
  - exists (rb_data b), (mkRB None 0 0 0). split; [reflexivity|]. split; [exact I0|].
    destruct (rb_data b) as [d|] eqn:E.
    + split; [reflexivity|]. unfold rb_abs. rewrite S0, dropN_0, N.sub_0_r. unfold rb_mem. rewrite E. exists (dropN (rb_end b) d).
      symmetry; apply takeN_dropN.
    + assert (X : rb_abs b = []). { unfold rb_abs, rb_mem. rewrite E. unfold takeN, dropN. rewrite skipn_nil, firstn_nil. reflexivity. }
      rewrite X. split; [reflexivity|left; reflexivity].
  - rewrite rb_size_abs by exact H. cbn [bind]. rewrite peek_ok by (auto; lia). cbn [bind]. rewrite takeN_all by lia.
    destruct (env_ok e) eqn:Eo; cbn [negb].
    + eexists (Some _), _. split; [reflexivity|]. split; [exact I0|]. split; [reflexivity|]. exists []. rewrite app_nil_r; reflexivity.
    + exists None, b. split; [reflexivity|]. split; [exact H|]. split; [reflexivity|right; reflexivity].
Qed.

Lemma donate_ok e b p : rb_inv b -> env_good e -> len p < 2 ^ 63 ->
  exists r b', rb_donate e b p = Ok (r, b') /\ rb_inv b' /\
  (if r : bool then rb_abs b' = rb_abs b ++ p else b' = b /\ acq_fail e (len (rb_abs b) + len p)).
Proof.
  intros H He Hp. unfold rb_donate. rewrite rb_size_abs by exact H. cbn [bind].
  destruct (0 <? len (rb_abs b)) eqn:E0.
  - destruct (append_ok e b p H He) as (r & b' & P & I & Q); [change (2^63) with 9223372036854775808 in Hp; unfold two64; lia|].
    rewrite P. cbn [bind]. destruct r as [x|].
    + exists true, b'. split; [reflexivity|]. split; [exact I|]. apply Q.
    + exists false, b'. split; [reflexivity|]. split; [exact I|]. exact Q.
  - apply len0_nil in E0. rewrite E0. exists true. eexists. split; [reflexivity|]. split.
    + unfold rb_inv. rewrite rb_mem_some. cbn [rb_start rb_end rb_alloc]. repeat split; lia.
    + unfold rb_abs. rewrite rb_mem_some. cbn [rb_start rb_end]. rewrite N.sub_0_r, dropN_0. cbn [app]. apply takeN_all. lia.
Qed.

Lemma write_ok script : forall b done, rb_inv b -> done + len (rb_abs b) < two64 ->
  exists r out b', rb_write b script done = Ok (r, out, b') /\ rb_inv b' /\ rb_abs b = out ++ rb_abs b' /\
  match r with
  | inr x => rb_abs b' = [] /\ x = (0 <? done + len (rb_abs b))
  | inl err => In (WErr err) script \/ err = EIO
  end.
Proof.
  induction script as [|w script IH]; intros b done H Hd; cbn [rb_write]; rewrite rb_size_abs by exact H; cbn [bind].
  - destruct (N.eqb_spec (len (rb_abs b)) 0) as [Z|Z].
    + rewrite Z. pose proof (len_zero_nil _ Z) as E. exists (inr (0 <? done)), [], b. split; [reflexivity|]. split; [exact H|].
      rewrite E. split; [reflexivity|]. rewrite N.add_0_r. split; reflexivity.
    + exists (inl EIO), [], b. split; [reflexivity|]. split; [exact H|]. split; [reflexivity|right; reflexivity].
  - destruct (N.eqb_spec (len (rb_abs b)) 0) as [Z|Z].
    + rewrite Z. pose proof (len_zero_nil _ Z) as E. exists (inr (0 <? done)), [], b. split; [reflexivity|]. split; [exact H|].
      rewrite E. split; [reflexivity|]. rewrite N.add_0_r. split; reflexivity.
    + destruct w as [n|err].
      2:{ exists (inl err), [], b. split; [reflexivity|]. split; [exact H|]. split; [reflexivity|left; left; reflexivity]. }
      set (k := N.min n (len (rb_abs b))).
      rewrite peek_ok by (auto; lia). cbn [bind].
      pose proof (len_abs b H) as L.
      destruct (advance_ok b k H) as (r & b' & P & I & Q); [unfold two64 in *; lia|]. rewrite P. cbn [bind].
      rewrite (proj2 (N.ltb_ge _ _)) in Q by lia. destruct Q as [-> Q].
      rewrite addw_small by (unfold two64 in *; lia).
      destruct (IH b' (done + k) I) as (r2 & out & b2 & P2 & I2 & Q2 & R2).
      { rewrite Q, len_dropN. lia. }
      rewrite P2. cbn [bind]. exists r2, (takeN k (rb_abs b) ++ out), b2. split; [reflexivity|]. split; [exact I2|].
      split. { rewrite <- app_assoc, <- Q2, Q. symmetry; apply takeN_dropN. }
      destruct r2 as [err|x]; [destruct R2; [left; right; assumption|right; assumption]|].
      destruct R2 as [R2 ->]. split; [exact R2|]. f_equal. rewrite Q, len_dropN. lia.
Qed.

Lemma write0_ok script b : rb_inv b ->
  exists r out b', rb_write b script 0 = Ok (r, out, b') /\ rb_inv b' /\ rb_abs b = out ++ rb_abs b' /\
  match r with
  | inr x => rb_abs b' = [] /\ x = (0 <? len (rb_abs b))
  | inl err => In (WErr err) script \/ err = EIO
  end.
Proof.
  intros H. pose proof (write_ok script b 0 H) as W. rewrite N.add_0_l in W. apply W.
  pose proof (len_abs b H). destruct H as (_ & A & _ & B). change (2^63) with 9223372036854775808 in B. unfold two64. lia.
Qed.

Lemma printf_ok es s : (forall i, env_good (es i)) -> forall fuel b k, rb_inv b -> 8 <= k -> k <= 31 -> 31 < k + N.of_nat fuel ->
  2 ^ k <= N.max 256 (2 * len s) ->
  exists r b', rb_printf_loop fuel es b s (2 ^ k) = Ok (r, b') /\ rb_inv b' /\
  match r with
  | None => rb_abs b' = rb_abs b ++ s
  | Some err => err = ENOMEM /\ rb_abs b' = rb_abs b /\ exists i, no_memory (es i) (len (rb_abs b) + N.max 256 (2 * len s))
  end.
Proof.
  intros He. induction fuel as [|fuel IH]; intros b k H K1 K2 K3 K4; [lia|]. cbn [rb_printf_loop].
  assert (P8 : 2 ^ 8 <= 2 ^ k) by (apply N.pow_le_mono_r; lia). change (2^8) with 256 in P8.
  assert (P31 : 2 ^ k <= 2 ^ 31) by (apply N.pow_le_mono_r; lia). change (2^31) with 2147483648 in P31.
  destruct (extend_ok (es fuel) b (2 ^ k) H (He _)) as (o & b' & P & I & Q); [unfold two64; lia|]. rewrite P. cbn [bind].
  destruct o as [p|].
  2:{ destruct Q as (-> & Q). eexists (Some _), _. split; [reflexivity|]. split; [exact H|]. split; [reflexivity|]. split; [reflexivity|].
      exists fuel. destruct Q as [Q|Q]; [left|right; exact Q]. unfold REALLOC_BUFFER_MAX in Q. lia. }
  destruct Q as (-> & Q0 & j & Lj & Q). set (m := 2 ^ k) in *.
  destruct (fill_ok b b' _ (takeN (m - 1) s ++ [0]) j I Q eq_refl) as (b'' & P' & I' & E').
  { rewrite len_app, len_takeN, len_cons, len_nil. lia. }
  rewrite P'. cbn [bind].
  assert (L'' : len (rb_abs b'') = len (rb_abs b) + m).
  { rewrite E', !len_app, len_dropN, Lj, ?len_app, len_takeN, len_cons, len_nil. lia. }
  destruct (N.ltb_spec (len s) m) as [Hs|Hs].
  - destruct (shorten_ok b'' (m - len s) I') as (r3 & b3 & P3 & I3 & Q3). rewrite P3. cbn [bind].
    rewrite L'' in Q3. rewrite (proj2 (N.ltb_ge _ _)) in Q3 by lia. destruct Q3 as [-> Q3].
    exists None, b3. split; [reflexivity|]. split; [exact I3|]. rewrite Q3, E'.
    rewrite (takeN_all (m - 1) s) by lia. rewrite <- !app_assoc. rewrite takeN_app_ge by lia. f_equal.
    apply takeN_app_exact. lia.
  - destruct (shorten_ok b'' m I') as (r3 & b3 & P3 & I3 & Q3). rewrite P3. cbn [bind].
    rewrite L'' in Q3. rewrite (proj2 (N.ltb_ge _ _)) in Q3 by lia. destruct Q3 as [-> Q3].
    assert (E3 : rb_abs b3 = rb_abs b). { rewrite Q3, E'. apply takeN_app_exact. lia. }
    assert (K30 : k <= 30).
    { destruct (N.le_gt_cases k 30) as [X|X]; [exact X|]. exfalso. assert (k = 31) by lia. subst k. unfold m, REALLOC_BUFFER_MAX in *.
      change (2^31) with 2147483648 in Q0. lia. }
    replace (2 * m) with (2 ^ (k + 1)) by (unfold m; rewrite N.pow_add_r; change (2^1) with 2; lia).
    destruct (IH b3 (k + 1) I3) as (r & b4 & P4 & I4 & Q4); [lia|lia|lia|rewrite N.pow_add_r; change (2^1) with 2; fold m; lia|].
    exists r, b4. split; [exact P4|]. split; [exact I4|]. rewrite E3 in Q4. exact Q4.
Qed.

Lemma find_byte_spec c l : match find_byte c l with
  | Some k => exists a t, l = a ++ c :: t /\ ~ In c a /\ k = len a
  | None => ~ In c l end.
Proof.
  induction l as [|x l IH]; cbn [find_byte]; [cbn; tauto|].
  destruct (N.eqb_spec x c) as [-> | Hx].
  - exists [], l. split; [reflexivity|]. split; [cbn; tauto|reflexivity].
  - destruct (find_byte c l) as [k|]; cbn [option_map].
    + destruct IH as (a & t & -> & Ha & ->). exists (x :: a), t. split; [reflexivity|].
      split; [cbn; intros [X|X]; congruence || tauto|]. rewrite len_cons. lia.
    + cbn. intros [X|X]; congruence || tauto.
Qed.

Lemma step_ok b o : rb_inv b -> op_ok o ->
  exists r b', rb_step b o = Ok (r, b') /\ rb_inv b' /\ fifo o (rb_abs b) r (rb_abs b').
Proof.
  intros H Ho. destruct o; cbn [rb_step op_ok] in *.
  - destruct Ho as [He Hn]. destruct (acquire_ok e b n H He Hn) as (r & b' & -> & I & Q). cbn [bind]. eexists _, b'. split; [reflexivity|].
    split; [exact I|]. cbn [fifo]. destruct r as [p|]; cbn [ptr].
    + right. destruct Q as (_ & _ & Q & T). split; [reflexivity|]. split; [exact Q|].
      destruct (N.le_gt_cases (len (rb_abs b)) n) as [L|L].
      * left. rewrite N.min_r, (takeN_all n (rb_abs b)) in T by lia. exists (dropN (len (rb_abs b)) (rb_abs b')).
        rewrite <- (takeN_dropN (len (rb_abs b)) (rb_abs b')) at 1. rewrite T. reflexivity.
      * right. rewrite N.min_l, takeN_all in T by lia. exists (dropN n (rb_abs b)). rewrite T. symmetry. apply takeN_dropN.
    + destruct Q as [-> Q]. left. split; [reflexivity|]. split; [reflexivity|exact Q].
  - destruct Ho as [He Hn]. destruct (acquire0_ok e b n H He Hn) as (r & b' & -> & I & Q). cbn [bind]. eexists _, b'. split; [reflexivity|].
    split; [exact I|]. cbn [fifo]. destruct r as [p|]; cbn [ptr].
    + right. split; [reflexivity|exact Q].
    + destruct Q as [-> Q]. left. split; [reflexivity|]. split; [reflexivity|exact Q].
  - destruct Ho as [He Hn]. destruct (extend_ok e b n H He Hn) as (r & b' & -> & I & Q). cbn [bind]. eexists _, b'. split; [reflexivity|].
    split; [exact I|]. cbn [fifo]. destruct r as [p|]; cbn [ptr].
    + right. destruct Q as (_ & _ & Q). split; [reflexivity|exact Q].
    + destruct Q as [-> Q]. left. split; [reflexivity|]. split; [reflexivity|exact Q].
  - destruct Ho as [He Hn]. destruct (extend0_ok e b n H He Hn) as (r & b' & -> & I & Q). cbn [bind]. eexists _, b'. split; [reflexivity|].
    split; [exact I|]. cbn [fifo]. destruct r as [p|]; cbn [ptr].
    + right. split; [reflexivity|exact Q].
    + destruct Q as [-> Q]. left. split; [reflexivity|]. split; [reflexivity|exact Q].
  - destruct Ho as [He Hn]. change (2^63) with 9223372036854775808 in Hn. destruct (append_ok e b bs H He) as (r & b' & -> & I & Q); [unfold two64; lia|]. cbn [bind]. eexists _, b'. split; [reflexivity|].
    split; [exact I|]. cbn [fifo]. destruct r as [p|]; cbn [ptr].
    + right. split; [reflexivity|apply Q].
    + destruct Q as [-> Q]. left. split; [reflexivity|]. split; [reflexivity|exact Q].
  - eexists _, _. split; [reflexivity|]. split; [unfold rb_inv; cbn; repeat split; lia|reflexivity].
  - eexists _, _. split; [reflexivity|]. apply rb_empty_ok, H.
  - destruct (advance_ok b n H Ho) as (r & b' & -> & I & Q). cbn [bind]. eexists _, b'. split; [reflexivity|]. split; [exact I|]. cbn [fifo].
    destruct (N.ltb_spec (len (rb_abs b)) n) as [L|L]; destruct Q as [-> Q].
    + right. subst. auto.
    + left. rewrite Q, takeN_dropN. auto.
  - destruct (shorten_ok b n H) as (r & b' & -> & I & Q). cbn [bind]. eexists _, b'. split; [reflexivity|]. split; [exact I|]. cbn [fifo].
    destruct (N.ltb_spec (len (rb_abs b)) n) as [L|L]; destruct Q as [-> Q].
    + right. subst. auto.
    + left. split; [exact L|]. split; [reflexivity|]. exists (dropN (len (rb_abs b) - n) (rb_abs b)). rewrite Q, takeN_dropN, len_dropN.
      split; [lia|reflexivity].
  - destruct (truncate_ok b n H Ho) as (r & b' & -> & I & Q). cbn [bind]. eexists _, b'. split; [reflexivity|]. split; [exact I|]. cbn [fifo].
    destruct (N.ltb_spec (len (rb_abs b)) n) as [L|L]; destruct Q as [-> Q].
    + right. subst. auto.
    + left. auto.
  - destruct Ho as [He Ha]. destruct (read_size_ok e b r add H He) as (o & b' & -> & I & Q).
    { destruct add as [a|]; [rewrite readsz_max; unfold two64 in *; lia|reflexivity]. }
    cbn [bind]. eexists _, b'. split; [reflexivity|]. split; [exact I|]. cbn [fifo]. destruct o as [err|more]; cbn [intb].
    + right. destruct Q as [Q R]. split; [exact Q|]. exists err. split; [reflexivity|]. destruct R as [R|[R1 R2]]; [left; exact R|right].
      split; [exact R1|]. destruct add as [a|]; [rewrite readsz_max in R2; exact R2|exact R2].
    + left. destruct Q as (d & Dv & Q & -> & _). exists d. split; [apply delivers_got, Dv|]. split; [exact Q|reflexivity].
  - destruct Ho as [He HF]. destruct (read_full_ok script b e0 limit H He HF) as (r & b' & -> & I & ds & rest & G & Q & R). cbn [bind].
    eexists _, b'. split; [reflexivity|]. split; [exact I|]. cbn [fifo]. exists ds, rest. split; [exact G|]. split; [exact Q|].
    destruct R as [[-> R]|[[-> R]|[(e & err & rest' & -> & R)|[-> R]]]]; cbn [int0].
    + left. auto. + right; left. auto. + right; right; left. exists e, err, rest'. auto. + right; right; right. auto.
  - destruct Ho as [He [HF Ht]]. destruct (read_target_ok script b e0 target H He HF Ht) as (r & b' & -> & I & ds & rest & G & Q & R). cbn [bind].
    eexists _, b'. split; [reflexivity|]. split; [exact I|]. cbn [fifo]. exists ds, rest. split; [exact G|]. split; [exact Q|].
    destruct R as [[-> R]|[[-> R]|[(e & err & rest' & -> & R)|[-> R]]]]; cbn [intb].
    + left. auto. + right; left. auto. + right; right; left. exists e, err, rest'. auto. + right; right; right. auto.
  - destruct (steal_ok e b H) as (r & b' & -> & I & Q). cbn [bind]. eexists _, b'. split; [reflexivity|]. split; [exact I|]. cbn [fifo].
    destruct r as [m|].
    + right. destruct Q as [Q [rest ->]]. exists (rb_abs b ++ rest), rest. auto.
    + left. destruct Q as [Q R]. auto.
  - destruct Ho as [He Hp]. destruct (donate_ok e b p H He Hp) as (r & b' & -> & I & Q). cbn [bind]. eexists _, b'. split; [reflexivity|]. split; [exact I|]. cbn [fifo].
    destruct r; [right; auto|left]. destruct Q as [-> Q]. auto.
  - destruct (write0_ok script b H) as (r & out & b' & -> & I & E & Q). cbn [bind]. eexists _, b'. split; [reflexivity|]. split; [exact I|]. cbn [fifo].
    exists out, (intb r). split; [reflexivity|]. split; [exact E|]. destruct r as [err|x]; cbn [intb].
    + right. exists err. auto.
    + left. destruct Q as [Q ->]. auto.
  - unfold rb_write_maybe. rewrite rb_size_abs by exact H. cbn [bind]. destruct (N.ltb_spec (len (rb_abs b)) BUFFER_SIZE) as [L|L].
    + cbn [bind]. eexists _, b. split; [reflexivity|]. split; [exact H|]. cbn [fifo]. left. auto.
    + destruct (write0_ok script b H) as (r & out & b' & -> & I & E & Q). cbn [bind]. eexists _, b'. split; [reflexivity|]. split; [exact I|]. cbn [fifo].
      right. split; [exact L|]. exists out, (intb r). split; [reflexivity|]. split; [exact E|]. destruct r as [err|x]; cbn [intb].
      * right. exists err. auto.
      * left. destruct Q as [Q ->]. split; [exact Q|]. rewrite (proj2 (N.ltb_lt _ _)) by (unfold BUFFER_SIZE in L; lia). reflexivity.
  - destruct Ho as [He Hs]. unfold rb_printf. change 256 with (2 ^ 8).
    destruct (printf_ok es s He 64 b 8 H) as (r & b' & -> & I & Q); [lia|lia|lia|change (2^8) with 256; lia|].
    cbn [bind]. eexists _, b'. split; [reflexivity|]. split; [exact I|]. cbn [fifo]. destruct r as [err|]; cbn [int0].
    + right. destruct Q as (-> & Q & R). auto.
    + left. auto.
  - unfold rb_memchr. rewrite rb_size_abs by exact H. cbn [bind]. change (2^31) with 2147483648. destruct (N.eqb_spec (len (rb_abs b)) 0) as [Z|Z].
    + cbn [bind]. eexists _, b. split; [reflexivity|]. split; [exact H|]. cbn [fifo]. split; [reflexivity|]. right.
      rewrite (len_zero_nil _ Z). split; [cbn; tauto|reflexivity].
    + rewrite peek_ok by (auto; lia). cbn [bind]. rewrite takeN_all by lia. pose proof (find_byte_spec c (rb_abs b)) as F.
      destruct (find_byte c (rb_abs b)) as [k|].
      * destruct F as (a & t & F1 & F2 & ->). destruct (N.ltb_spec 2147483647 (len a)) as [L|L]; cbn [bind].
        -- eexists _, b. split; [reflexivity|]. split; [exact H|]. cbn [fifo]. split; [reflexivity|]. left. exists a, t. split; [exact F1|]. split; [exact F2|].
           right. split; [reflexivity|]. change (2^31) with 2147483648; lia.
        -- eexists _, b. split; [reflexivity|]. split; [exact H|]. cbn [fifo]. split; [reflexivity|]. left. exists a, t. split; [exact F1|]. split; [exact F2|].
           left. split; [reflexivity|]. change (2^31) with 2147483648; lia.
      * cbn [bind]. eexists _, b. split; [reflexivity|]. split; [exact H|]. cbn [fifo]. split; [reflexivity|]. right. auto.
  - unfold rb_view_from. pose proof H as (A & B & C & D). change (2^63) with 9223372036854775808 in D.
    rewrite (proj2 (N.leb_le _ _) A), (proj2 (N.leb_le _ _) B). cbn [andb negb].
    pose proof (len_abs b H) as L.
    destruct (N.le_gt_cases two64 (rb_start b + off)) as [Hc|Hc].
    { assert (E : addw (rb_start b) off < rb_start b).
      { unfold addw. replace (rb_start b + off) with (rb_start b + off - two64 + 1 * two64) by (unfold two64 in *; lia).
        rewrite N.mod_add by discriminate. rewrite N.mod_small; unfold two64 in *; lia. }
      rewrite (proj2 (N.ltb_lt _ _) E). cbn [bind]. eexists _, b. split; [reflexivity|]. split; [exact H|]. cbn [fifo]. split; [reflexivity|].
      right. split; [unfold two64 in *; lia|reflexivity]. }
    rewrite addw_small by exact Hc. rewrite (proj2 (N.ltb_ge (rb_start b + off) _)) by lia.
    destruct (N.ltb_spec (rb_end b) (rb_start b + off)) as [He|He]; cbn [bind].
    + eexists _, b. split; [reflexivity|]. split; [exact H|]. cbn [fifo]. split; [reflexivity|]. right. split; [lia|reflexivity].
    + assert (P : peek b (rb_start b + off) (rb_end b - (rb_start b + off)) = Ok (dropN off (rb_abs b))).
      { unfold peek. destruct (N.eqb_spec (rb_end b - (rb_start b + off)) 0) as [Z|Z].
        - rewrite dropN_all by lia. reflexivity.
        - rewrite (proj2 (N.leb_le _ _)) by lia. f_equal. unfold rb_abs. rewrite dropN_takeN, dropN_dropN. f_equal; [lia|]. f_equal. lia. }
      rewrite P. cbn [bind]. eexists _, b. split; [reflexivity|]. split; [exact H|]. cbn [fifo]. split; [reflexivity|]. left. split; [lia|reflexivity].
Qed.

Lemma init_inv : rb_inv rb_init.
Proof. unfold rb_inv. cbn. repeat split; lia. Qed.

Lemma history_inv h b : rb_history h b -> rb_inv b.
Proof.
  induction 1 as [|h b o r b' _ IH Ho Hs]; [apply init_inv|].
  destruct (step_ok b o IH Ho) as (r' & b2 & E & I & _). rewrite E in Hs. injection Hs as <- <-. exact I.
Qed.

Lemma history_fifo h b : rb_history h b -> fifo_history h (rb_abs b).
Proof.
  induction 1 as [|h b o r b' Hh IH Ho Hs]; [constructor|].
  destruct (step_ok b o (history_inv _ _ Hh) Ho) as (r' & b2 & E & I & F). rewrite E in Hs.
  assert (X1 : r' = r) by congruence. assert (X2 : b2 = b') by congruence. subst.
  eapply FH_step; eassumption.
Qed.
