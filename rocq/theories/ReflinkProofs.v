(** Proofs about cloning from seeds. *)
From Coq Require Import Lia ZArith.
From Verif Require Import Base Location Reflink.
Local Open Scope N_scope.

Lemma put_same d pos p : p = takeN (len p) (dropN pos d) -> (p = [] -> pos <= len d) -> put_at d pos p = d.
Proof.
  intros E F. unfold put_at.
  destruct p as [|b p]; [|].
  - specialize (F eq_refl). replace (pos - len d) with 0 by lia. change (len (@nil N)) with 0. rewrite N.add_0_r.
    change (N.to_nat 0) with O. cbn [repeat app]. apply takeN_dropN.
  - assert (H : pos <= len d).
    { destruct (N.le_gt_cases pos (len d)) as [H | H]; [exact H|]. exfalso.
      rewrite dropN_all in E by lia. apply (f_equal len) in E. rewrite len_takeN in E. change (len (@nil N)) with 0 in E. rewrite len_cons in E. lia. }
    replace (pos - len d) with 0 by lia. change (N.to_nat 0) with O. cbn [repeat app].
    change (b :: p ++ dropN (pos + len (b :: p)) d) with ((b :: p) ++ dropN (pos + len (b :: p)) d).
    rewrite E at 1. rewrite N.add_comm, <- dropN_dropN, takeN_dropN. apply takeN_dropN.
Qed.

Section Calm.
Variables (D0 : N -> list N) (d : rfile).
Definition Iw (w : rworld) : Prop := (forall i, f_data (w_files w i) = D0 i) /\ w_dst w = d.
Definition calm (ts : list trouble) : Prop := Forall (fun t => match t_change t with Some (_, f) => forall i, f_data (f i) = D0 i | None => True end) ts.
Definition good (s : rstate) : Prop := Iw (fst s) /\ calm (snd s).

Lemma changed_I w t : Iw w -> match t_change t with Some (_, f) => forall i, f_data (f i) = D0 i | None => True end -> Iw (changed w t).
Proof.
  intros [A B] C. unfold changed. destruct (t_change t) as [[a f]|]; [|exact (conj A B)]. split; [exact C | exact B].
Qed.

Lemma syscall_good {A} (f : rworld -> res A * rworld) s r s' : good s -> syscall f s = (r, s') ->
  (forall w, Iw w -> Iw (snd (f w))) -> good s' /\ ((exists e, r = Err e) \/ exists w, Iw w /\ fst (f w) = r).
Proof.
  intros [W C] E F. destruct s as [w ts]. cbn [fst snd] in W, C. destruct ts as [|t ts]; cbn [syscall] in E.
  - specialize (F w W). destruct (f w) as [r0 w0] eqn:Ef. inversion E; subst. cbn [snd] in F. split; [split; [exact F | constructor]|].
    right. exists w. rewrite Ef. split; [exact W | reflexivity].
  - inversion C as [|? ? C1 C2]; subst. pose proof (changed_I w t W C1) as W1. destruct (t_fail t) as [e|].
    + inversion E; subst. split; [split; assumption|]. left. exists e. reflexivity.
    + specialize (F _ W1). destruct (f (changed w t)) as [r0 w0] eqn:Ef. inversion E; subst. cbn [snd] in F.
      split; [split; [exact F | exact C2]|]. right. exists (changed w t). rewrite Ef. split; [exact W1 | reflexivity].
Qed.

Definition data_of (x : which) : list N := match x with Src i => D0 i | Dst => f_data d end.
Lemma file_data w x : Iw w -> f_data (file_of w x) = data_of x.
Proof. intros [A B]. destruct x; cbn; [apply A | rewrite B; reflexivity]. Qed.

Lemma open_good rt p s r s' : good s -> sys_open rt p s = (r, s') -> good s'.
Proof. intros G E. destruct (syscall_good _ _ _ _ G E) as [K _]; [auto | exact K]. Qed.
Lemma version_good i s r s' : good s -> sys_version i s = (r, s') -> good s'.
Proof. intros G E. destruct (syscall_good _ _ _ _ G E) as [K _]; [auto | exact K]. Qed.
Lemma fstat_good x s r s' : good s -> sys_fstat x s = (r, s') -> good s' /\ forall a, r = Ok a -> f_data a = data_of x.
Proof.
  intros G E. destruct (syscall_good _ _ _ _ G E) as [K L]; [auto|]. split; [exact K|]. intros a ->.
  destruct L as [(e & H) | (w & W & H)]; [discriminate|]. cbn in H. inversion H. apply file_data. exact W.
Qed.
Lemma pread_good x n off s r s' : good s -> sys_pread x n off s = (r, s') ->
  good s' /\ forall p, r = Ok p -> p = takeN (N.min n MAX_RW_COUNT) (dropN off (data_of x)).
Proof.
  intros G E. destruct (syscall_good _ _ _ _ G E) as [K L]; [auto|]. split; [exact K|]. intros p ->.
  destruct L as [(e & H) | (w & W & H)]; [discriminate|]. cbn [fst] in H. destruct (OFF_MAX <? off); [discriminate|]. inversion H.
  rewrite (file_data w x W). reflexivity.
Qed.
Lemma harder_good x n off s r s' : good s -> pread_try_harder x n off s = (r, s') ->
  good s' /\ forall p, r = Ok p -> p = takeN (N.min n MAX_RW_COUNT) (dropN off (data_of x)).
Proof.
  intros G E. unfold pread_try_harder in E. destruct (sys_pread x n off s) as [r1 s1] eqn:E1.
  destruct (pread_good _ _ _ _ _ _ G E1) as [G1 P1].
  destruct r1 as [p1 | e1 | |]; try (inversion E; subst; split; [exact G1 | exact P1]).
  destruct (syscall (fun w => (Ok tt, w)) s1) as [r2 s2] eqn:E2.
  destruct (syscall_good _ _ _ _ G1 E2) as [G2 _]; [auto|].
  assert (Z : forall e, (Err e, s2) = (r, s') -> good s' /\ forall p, r = Ok p -> p = takeN (N.min n MAX_RW_COUNT) (dropN off (data_of x))).
  { intros e H. inversion H; subst. split; [exact G2 | discriminate]. }
  destruct r2; try (eapply Z; exact E).
  destruct (sys_pread x n off s2) as [r3 s3] eqn:E3. destruct (pread_good _ _ _ _ _ _ G2 E3) as [G3 P3].
  destruct r3; inversion E; subst; split; try exact G3; try exact P3. discriminate.
Qed.

Definition agree (i soff doff n : N) : Prop :=
  takeN n (dropN soff (D0 i)) = takeN n (dropN doff (f_data d)) /\ len (takeN n (dropN soff (D0 i))) = n.
Lemma validate_good i soff doff n s r s' : good s -> validate i soff doff n s = (r, s') -> good s' /\ (r = Ok tt -> agree i soff doff n).
Proof.
  intros G E. unfold validate in E.
  destruct (pread_try_harder (Src i) n soff s) as [x s1] eqn:E1. destruct (harder_good _ _ _ _ _ _ G E1) as [G1 P1].
  destruct (pread_try_harder Dst n doff s1) as [y s2] eqn:E2. destruct (harder_good _ _ _ _ _ _ G1 E2) as [G2 P2].
  assert (Z : (Abort, s2) = (r, s') -> good s' /\ (r = Ok tt -> agree i soff doff n)).
  { intro H. inversion H; subst. split; [exact G2 | discriminate]. }
  destruct x as [a | | |]; try (exact (Z E)). destruct y as [b | | |]; try (exact (Z E)).
  destruct (len a =? n) eqn:La; [|exact (Z E)]. destruct (len b =? n) eqn:Lb; [|exact (Z E)]. cbn [negb] in E.
  destruct (beq a b) eqn:B; [|exact (Z E)]. inversion E; subst r s'. split; [exact G2|]. intros _.
  apply N.eqb_eq in La, Lb. apply beq_eq in B. specialize (P1 a eq_refl). specialize (P2 b eq_refl). cbn [data_of] in P1, P2.
  assert (M : N.min n MAX_RW_COUNT = n \/ MAX_RW_COUNT < n) by lia. destruct M as [M | M].
  - rewrite M in P1, P2. split; [rewrite <- P1, <- P2; exact B | rewrite <- P1; exact La].
  - exfalso. rewrite N.min_r in P1 by lia. apply (f_equal len) in P1. rewrite len_takeN in P1. lia.
Qed.

Lemma clone_good i soff n doff s r s' : good s -> sys_clone i soff n doff s = (r, s') ->
  (forall m, m = (if n =? 0 then len (D0 i) - soff else n) -> m <> 0 -> soff + m <= len (D0 i) -> agree i soff doff m) -> good s'.
Proof.
  intros G E H. destruct (syscall_good _ _ _ _ G E) as [K _]; [|exact K]. intros w [A B]. cbv zeta beta.
  rewrite A, B. specialize (H _ eq_refl). remember (if n =? 0 then len (D0 i) - soff else n) as m eqn:Em.
  destruct (w_refuses w); [split; assumption|]. destruct (len (D0 i) <? soff + m) eqn:L; [split; assumption|]. apply N.ltb_ge in L.
  destruct (m =? 0) eqn:Z; [split; assumption|]. apply N.eqb_neq in Z. destruct (H Z L) as [H1 H2]. cbn [snd].
  split; [exact A|]. cbn [w_dst]. destruct d as [k dd ino st g]; cbn [f_kind f_data f_inode f_stamp f_gen] in *. f_equal.
  apply put_same; [rewrite H2; exact H1|]. intro Q. rewrite Q in H2. change (len (@nil N)) with 0 in H2. lia.
Qed.

Lemma reflink_fd_good i soff doff sz s r s' : good s -> reflink_fd i soff doff sz s = (r, s') -> good s'.
Proof.
  intros G E. unfold reflink_fd in E.
  destruct (soff mod FS_BLOCK_SIZE =? doff mod FS_BLOCK_SIZE); cbn [negb] in E; [|inversion E; subst; exact G].
  destruct ((soff + sz) mod two64 <? soff); [inversion E; subst; exact G|].
  destruct ((doff + sz) mod two64 <? doff); [inversion E; subst; exact G|].
  cbv zeta in E. destruct ((0 <? soff mod FS_BLOCK_SIZE) && _); [inversion E; subst; exact G|].
  remember (if 0 <? soff mod FS_BLOCK_SIZE then (soff + (FS_BLOCK_SIZE - soff mod FS_BLOCK_SIZE), doff + (FS_BLOCK_SIZE - soff mod FS_BLOCK_SIZE), sz - (FS_BLOCK_SIZE - soff mod FS_BLOCK_SIZE)) else (soff, doff, sz)) as tr eqn:Etr.
  clear Etr. destruct tr as [[so do] n0]. unfold rbind at 1 in E.
  destruct (sys_fstat (Src i) s) as [ra s1] eqn:E1. destruct (fstat_good _ _ _ _ G E1) as [G1 A1].
  destruct ra as [a | | |]; try (inversion E; subst; exact G1). unfold rbind at 1 in E.
  destruct (sys_fstat Dst s1) as [rb s2] eqn:E2. destruct (fstat_good _ _ _ _ G1 E2) as [G2 A2].
  destruct rb as [b | | |]; try (inversion E; subst; exact G2).
  specialize (A1 a eq_refl). specialize (A2 b eq_refl). cbn [data_of] in A1, A2. rewrite A1, A2 in E. clear A1 A2 E1 E2.
  destruct (f_kind a); destruct (f_kind b); try (inversion E; subst; exact G2).
  remember ((len (D0 i) <=? so + n0) && (len (f_data d) <=? do + n0)) as eof eqn:Eeof.
  set (n := if eof then n0 else n0 / FS_BLOCK_SIZE * FS_BLOCK_SIZE) in E.
  destruct (negb eof && (n0 / FS_BLOCK_SIZE * FS_BLOCK_SIZE =? 0)) eqn:Z0; [inversion E; subst; exact G2|].
  unfold rbind at 1 in E. destruct (validate i so do n s2) as [r3 s3] eqn:E3. destruct (validate_good _ _ _ _ _ _ _ G2 E3) as [G3 V3].
  destruct r3 as [[] | | |]; try (inversion E; subst; exact G3). specialize (V3 eq_refl).
  unfold rbind at 1 in E. destruct (sys_clone i so (if eof then 0 else n) do s3) as [r4 s4] eqn:E4.
  assert (G4 : good s4).
  { apply (clone_good _ _ _ _ _ _ _ G3 E4). intros m Em Hm Hl. destruct eof.
    - change (0 =? 0) with true in Em. cbv iota in Em. subst n. destruct V3 as [V1 V2]. symmetry in Eeof. apply andb_prop in Eeof. destruct Eeof as [Ea Eb].
      apply N.leb_le in Ea. rewrite len_takeN, len_dropN in V2. assert (Q : m = n0) by (clear - V2 Em Ea; lia). rewrite Q.
      split; [exact V1 | rewrite len_takeN, len_dropN; exact V2].
    - destruct (n =? 0) eqn:Zn; [|subst m; exact V3]. exfalso. subst n. cbn [negb andb] in Z0. rewrite Zn in Z0. discriminate. }
  destruct r4 as [[] | | |]; try (inversion E; subst; exact G4). unfold rbind in E.
  destruct (validate i so do n s4) as [r5 s5] eqn:E5. destruct (validate_good _ _ _ _ _ _ _ G4 E5) as [G5 _].
  destruct r5 as [[] | | |]; inversion E; subst; exact G5.
Qed.

Lemma location_open_good l s r s' : good s -> location_open l s = (r, s') -> good s'.
Proof.
  intros G E. unfold location_open in E. destruct (designator l =? DES_VOID); [inversion E; subst; exact G|].
  destruct (root l) as [rt|]; [|inversion E; subst; exact G]. unfold rbind at 1 in E.
  destruct (sys_open (Some rt) _ s) as [r1 s1] eqn:E1. pose proof (open_good _ _ _ _ _ G E1) as G1.
  destruct r1 as [i | | |]; try (inversion E; subst; exact G1). destruct (mtime l =? UINT64_MAX); [inversion E; subst; exact G1|].
  unfold rbind in E. destruct (sys_fstat (Src i) s1) as [r2 s2] eqn:E2. destruct (fstat_good _ _ _ _ G1 E2) as [G2 _].
  destruct r2 as [st | | |]; try (inversion E; subst; exact G2).
  destruct (f_inode st =? inode l); [|inversion E; subst; exact G2]. destruct (mtime l =? f_stamp st); [|inversion E; subst; exact G2]. cbn [negb] in E.
  destruct (generation_valid l); [|inversion E; subst; exact G2].
  destruct (sys_version i s2) as [r3 s3] eqn:E3. pose proof (version_good _ _ _ _ G2 E3) as G3.
  destruct r3 as [v | | |]; try (inversion E; subst; exact G3). destruct (Z.eqb v (generation l)); inversion E; subst; exact G3.
Qed.

Lemma node_reflink_good ls : forall off n s r s', good s -> node_reflink ls off n s = (r, s') -> good s'.
Proof.
  induction ls as [|l ls IH]; intros off n s r s' G E; cbn [node_reflink] in E; [inversion E; subst; exact G|].
  destruct (designator l =? DES_PAYLOAD); [|exact (IH _ _ _ _ _ G E)].
  destruct (location_open l s) as [r1 s1] eqn:E1. pose proof (location_open_good _ _ _ _ G E1) as G1.
  destruct r1 as [i | e | |]; try (inversion E; subst; exact G1).
  - destruct (reflink_fd i (offset l) off (size l) s1) as [r2 s2] eqn:E2. pose proof (reflink_fd_good _ _ _ _ _ _ _ G1 E2) as G2.
    destruct r2 as [k | e | |]; try (inversion E; subst; exact G2); [exact (IH _ _ _ _ _ G2 E)|].
    destruct e; try (inversion E; subst; exact G2); exact (IH _ _ _ _ _ G2 E).
  - destruct e; try (inversion E; subst; exact G1); exact (IH _ _ _ _ _ G1 E).
Qed.
End Calm.

(** ** Truthful origins *)
From Verif Require Import ReflinkSpec.

Lemma harder_calm x n off w : off <= OFF_MAX -> pread_try_harder x n off (w, []) = (Ok (takeN (N.min n MAX_RW_COUNT) (dropN off (f_data (file_of w x)))), (w, [])).
Proof.
  intro H. unfold pread_try_harder, sys_pread, syscall. destruct (OFF_MAX <? off) eqn:E; [apply N.ltb_lt in E; lia|]. reflexivity.
Qed.

Lemma validate_calm i so do n w : so <= OFF_MAX -> do <= OFF_MAX -> n <= MAX_RW_COUNT ->
  takeN n (dropN so (f_data (w_files w i))) = takeN n (dropN do (f_data (w_dst w))) ->
  so + n <= len (f_data (w_files w i)) -> do + n <= len (f_data (w_dst w)) -> validate i so do n (w, []) = (Ok tt, (w, [])).
Proof.
  intros H1 H2 H3 E L1 L2. unfold validate. rewrite (harder_calm _ _ _ _ H1), (harder_calm _ _ _ _ H2). rewrite N.min_l by exact H3. cbn [file_of].
  assert (K : len (takeN n (dropN so (f_data (w_files w i)))) = n) by (rewrite len_takeN, len_dropN; lia).
  assert (K2 : len (takeN n (dropN do (f_data (w_dst w)))) = n) by (rewrite len_takeN, len_dropN; lia).
  rewrite K, K2, N.eqb_refl. cbn [negb]. rewrite E, beq_refl. reflexivity.
Qed.

Lemma slice_sub (a b : list N) x y n k m : takeN n (dropN x a) = takeN n (dropN y b) -> k + m <= n ->
  takeN m (dropN (x + k) a) = takeN m (dropN (y + k) b).
Proof.
  intros E L. rewrite (N.add_comm x k), (N.add_comm y k), <- !dropN_dropN.
  assert (Q : forall l : list N, takeN m (dropN k l) = takeN m (dropN k (takeN n l))).
  { intro l. rewrite <- (takeN_dropN n l) at 1. destruct (N.le_gt_cases n (len l)) as [H | H].
    - assert (Hn : len (takeN n l) = n) by (rewrite len_takeN; lia).
      rewrite dropN_app_le by lia. rewrite takeN_app_le; [reflexivity|]. rewrite len_dropN. lia.
    - rewrite (takeN_all n l) by lia. rewrite (dropN_all n l) by lia. rewrite app_nil_r. reflexivity. }
  rewrite (Q (dropN x a)), (Q (dropN y b)), E. reflexivity.
Qed.

Lemma reflink_fd_calm i so do sz w : so < two64 -> sz <= MAX_RW_COUNT ->
  len (f_data (w_files w i)) <= OFF_MAX -> len (f_data (w_dst w)) <= OFF_MAX ->
  f_kind (w_files w i) = FReg -> f_kind (w_dst w) = FReg ->
  takeN sz (dropN so (f_data (w_files w i))) = takeN sz (dropN do (f_data (w_dst w))) ->
  so + sz <= len (f_data (w_files w i)) -> do + sz <= len (f_data (w_dst w)) ->
  exists r, reflink_fd i so do sz (w, []) = (r, (w, [])) /\
            ((exists n, r = Ok n) \/ r = Err EBADR \/ exists e, r = Err e /\ w_refuses w = Some e).
Proof.
  intros B1 B3 F1 F2 K1 K2 E L1 L2. unfold reflink_fd.
  destruct (so mod FS_BLOCK_SIZE =? do mod FS_BLOCK_SIZE) eqn:Ea; cbn [negb]; [|exists (Err EBADR); split; [reflexivity | right; left; reflexivity]].
  apply N.eqb_eq in Ea. assert (OM : OFF_MAX < two64) by reflexivity.
  rewrite N.mod_small by lia. destruct (so + sz <? so) eqn:W1; [apply N.ltb_lt in W1; lia|]. clear W1.
  rewrite N.mod_small by lia. destruct (do + sz <? do) eqn:W2; [apply N.ltb_lt in W2; lia|]. clear W2.
  cbv zeta. set (add := FS_BLOCK_SIZE - so mod FS_BLOCK_SIZE).
  destruct ((0 <? so mod FS_BLOCK_SIZE) && (sz <=? add)) eqn:Eb; [exists (Err EBADR); split; [reflexivity | right; left; reflexivity]|].
  assert (T : exists k, (if 0 <? so mod FS_BLOCK_SIZE then (so + add, do + add, sz - add) else (so, do, sz)) = (so + k, do + k, sz - k) /\ k <= sz).
  { destruct (0 <? so mod FS_BLOCK_SIZE) eqn:Ec.
    - exists add. split; [reflexivity|]. cbn [andb] in Eb. apply N.leb_gt in Eb. lia.
    - exists 0. rewrite !N.add_0_r, N.sub_0_r. split; [reflexivity | lia]. }
  destruct T as (k & -> & Hk). clear add Ea Eb. unfold rbind at 1. unfold sys_fstat at 1. cbn [syscall]. unfold rbind at 1. unfold sys_fstat at 1. cbn [syscall file_of].
  rewrite K1, K2. set (n0 := sz - k) in *.
  set (eof := (len (f_data (w_files w i)) <=? so + k + n0) && (len (f_data (w_dst w)) <=? do + k + n0)).
  set (n := if eof then n0 else n0 / FS_BLOCK_SIZE * FS_BLOCK_SIZE).
  destruct (negb eof && (n0 / FS_BLOCK_SIZE * FS_BLOCK_SIZE =? 0)) eqn:Ez; [exists (Err EBADR); split; [reflexivity | right; left; reflexivity]|].
  assert (Hn : n <= n0).
  { subst n. destruct eof; [lia|]. rewrite N.mul_comm. apply N.mul_div_le. unfold FS_BLOCK_SIZE. lia. }
  assert (V : validate i (so + k) (do + k) n (w, []) = (Ok tt, (w, []))).
  { apply validate_calm; try (subst n0; lia). apply (slice_sub _ _ _ _ sz); [exact E | subst n0; lia]. }
  unfold rbind at 1. rewrite V. unfold rbind at 1.
  assert (C : sys_clone i (so + k) (if eof then 0 else n) (do + k) (w, []) =
              match w_refuses w with Some e => (Err e, (w, [])) | None => (Ok tt, (w, [])) end).
  { unfold sys_clone. cbn [syscall]. destruct (w_refuses w) as [e|] eqn:Er; [reflexivity|].
    set (m := if (if eof then 0 else n) =? 0 then len (f_data (w_files w i)) - (so + k) else if eof then 0 else n).
    assert (Hm : m = n).
    { subst m. destruct eof eqn:Ee.
      - change (0 =? 0) with true. cbv iota. subst eof. apply andb_prop in Ee. destruct Ee as [Ee _]. apply N.leb_le in Ee. subst n n0. cbv iota. lia.
      - destruct (n =? 0) eqn:En; [|reflexivity]. exfalso. subst n. cbn [negb andb] in Ez. rewrite Ez in En. discriminate. }
    rewrite Hm. clearbody m. clear Hm.
    destruct (len (f_data (w_files w i)) <? so + k + n) eqn:El; [apply N.ltb_lt in El; subst n0; lia|].
    destruct (n =? 0) eqn:En; [reflexivity|]. apply N.eqb_neq in En.
    assert (P : put_at (f_data (w_dst w)) (do + k) (takeN n (dropN (so + k) (f_data (w_files w i)))) = f_data (w_dst w)).
    { apply put_same.
      - rewrite len_takeN, len_dropN. replace (N.min n (len (f_data (w_files w i)) - (so + k))) with n by (subst n0; lia).
        apply (slice_sub _ _ _ _ sz); [exact E | subst n0; lia].
      - intro Q. apply (f_equal len) in Q. rewrite len_takeN, len_dropN in Q. change (len (@nil N)) with 0 in Q. subst n0. lia. }
    rewrite P. destruct w as [wa wf wd wr]; cbn [w_at w_files w_dst w_refuses] in *. subst wr. destruct wd; reflexivity. }
  rewrite C. destruct (w_refuses w) as [e|] eqn:Er.
  - exists (Err e). split; [reflexivity|]. right. right. exists e. split; reflexivity.
  - unfold rbind. rewrite V. exists (Ok n). split; [reflexivity|]. left. exists n. reflexivity.
Qed.

Lemma location_open_calm l w : designator l = 112 -> root l <> None ->
  location_open l (w, []) =
  (match w_at w (root l) (strempty (path l)) with
   | Ok i => if (mtime l =? UINT64_MAX) || ((f_inode (w_files w i) =? inode l) && (mtime l =? f_stamp (w_files w i)) &&
                  (negb (generation_valid l) || match f_gen (w_files w i) with Some v => Z.eqb v (generation l) | None => false end)) then Ok i else Err ESTALE
   | r => r end, (w, [])).
Proof.
  intros Hd Hr. unfold location_open. rewrite Hd. change (112 =? DES_VOID) with false. cbv iota. destruct (root l) as [rt|]; [|congruence].
  unfold rbind at 1, sys_open. cbn [syscall]. destruct (w_at w (Some rt) (strempty (path l))) as [i | e | |]; try reflexivity.
  destruct (mtime l =? UINT64_MAX); [reflexivity|]. unfold rbind, sys_fstat. cbn [syscall file_of orb].
  destruct (f_inode (w_files w i) =? inode l); [|reflexivity]. destruct (mtime l =? f_stamp (w_files w i)); [|reflexivity]. cbn [negb andb].
  destruct (generation_valid l); [|reflexivity]. unfold sys_version. cbn [syscall]. destruct (f_gen (w_files w i)) as [v|]; [|reflexivity].
  cbn [negb orb]. destruct (Z.eqb v (generation l)); reflexivity.
Qed.

Lemma node_reflink_calm w : f_kind (w_dst w) = FReg -> len (f_data (w_dst w)) <= OFF_MAX -> refusal_known w ->
  forall ls off n, truthful w ls off -> exists k, node_reflink ls off n (w, []) = (Ok k, (w, [])).
Proof.
  intros K L R. induction ls as [|l ls IH]; intros off n T; cbn [node_reflink]; [exists n; reflexivity|].
  destruct T as [T Ts]. assert (OM : OFF_MAX < two64) by reflexivity.
  assert (Hoff : forall q, exists k, node_reflink ls ((off + size l) mod two64) q (w, []) = (Ok k, (w, []))).
  { intro q. destruct Ts as [Tl Ts]. rewrite N.mod_small by lia. apply IH. exact Ts. }
  destruct (designator l =? DES_PAYLOAD) eqn:Ed; [|apply Hoff].
  apply N.eqb_eq in Ed. specialize (T Ed). destruct T as (Hr & [Hn | (i & Hi & Hk & Hs & H1 & H2 & H3 & H4 & H5)]);
    rewrite (location_open_calm l w Ed Hr).
  - rewrite Hn. apply Hoff.
  - rewrite Hi.
    assert (Q : (mtime l =? UINT64_MAX) || ((f_inode (w_files w i) =? inode l) && (mtime l =? f_stamp (w_files w i)) &&
                  (negb (generation_valid l) || match f_gen (w_files w i) with Some v => Z.eqb v (generation l) | None => false end)) = true).
    { destruct Hs as [-> | (-> & <- & G)]; [reflexivity|]. rewrite !N.eqb_refl. apply Bool.orb_true_iff. right. cbn [andb].
      destruct (generation_valid l); [|reflexivity]. rewrite (G eq_refl). rewrite Z.eqb_refl. reflexivity. }
    rewrite Q.
    destruct (reflink_fd_calm i (offset l) off (size l) w) as (r & -> & Hx); try assumption; [lia|].
    destruct Hx as [(m & ->) | [-> | (e & -> & He)]]; [apply Hoff | apply Hoff|].
    specialize (R e He). destruct e; try (apply Hoff); cbn [errno_is_unsupported]; try (exists n; reflexivity); destruct R as [R | R]; try discriminate R; cbn in R; intuition discriminate.
Qed.
