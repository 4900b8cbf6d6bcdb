(** Inversion of system calls; names after changes. *)
From Verif Require Import Base Posix.
Local Open Scope N_scope.

(** Failure for reasons outside of the model. *)
Definition faulted (f : bool) (w w' : world) (r : sysret) : Prop := f = true /\ w' = w /\ exists e, r = RFail e /\ fault e = true.

Ltac inv_sys H :=
  inversion H; subst; try (left; split; [reflexivity|split; [reflexivity|eexists; split; [reflexivity|assumption]]]); right.

Lemma sys_mkdir f w p w' r : sys f w (SMkdir p) w' r -> faulted f w w' r \/
  match name_at w p with None => w' = put_name w p NDir /\ r = RNum 0 | Some _ => w' = w /\ r = RFail EEXIST end.
Proof. intros H; inv_sys H; match goal with E : name_at _ _ = _ |- _ => rewrite E end; auto. Qed.

Lemma sys_rmdir f w p w' r : sys f w (SRmdir p) w' r -> w' = w \/ (w' = del_name w p /\ name_at w p = Some NDir /\ existsb (in_dir p) (w_names w) = false).
Proof. intros H; inversion H; subst; auto. Qed.

Lemma sys_unlink f w p w' r : sys f w (SUnlink p) w' r -> faulted f w w' r \/
  match name_at w p with
  | None => w' = w /\ r = RFail ENOENT
  | Some NDir => w' = w /\ r = RFail EISDIR
  | Some _ => w' = del_name w p /\ r = RNum 0
  end.
Proof.
  intros H; inv_sys H; match goal with E : name_at _ _ = _ |- _ => rewrite E end; auto. destruct n; auto. congruence.
Qed.

Lemma sys_open f w p w' r : sys f w (SOpen p) w' r -> faulted f w w' r \/
  match name_at w p with
  | None => w' = w /\ r = RFail ENOENT
  | Some NDir => w' = w /\ r = RFail EISDIR
  | Some (NLink _) => w' = w /\ r = RFail ELOOP
  | Some (NFile i) => w' = add_fd w i /\ r = RFd (length (w_fds w))
  end.
Proof. intros H; inv_sys H; match goal with E : name_at _ _ = _ |- _ => rewrite E end; auto. Qed.

Lemma sys_creat f w p w' r : sys f w (SCreat p) w' r -> faulted f w w' r \/
  match name_at w p with
  | Some _ => w' = w /\ r = RFail EEXIST
  | None => (w' = w /\ r = RFail ENOENT /\ name_at w (dirname p) <> Some NDir) \/
            (w' = add_fd (add_file w p) (length (w_inodes w)) /\ r = RFd (length (w_fds w)) /\ name_at w (dirname p) = Some NDir)
  end.
Proof. intros H; inv_sys H; match goal with E : name_at _ p = _ |- _ => rewrite E end; auto. Qed.

Lemma sys_read_inv f w fd n w' r i pos c : sys f w (SRead fd n) w' r ->
  nth_error (w_fds w) fd = Some (i, pos) -> nth_error (w_inodes w) i = Some c ->
  faulted f w w' r \/
  (w' = set_pos w fd i (pos + len (takeN n (dropN pos c))) /\ r = RData (takeN n (dropN pos c))).
Proof.
  intros H E1 E2; inv_sys H.
  repeat match goal with E : nth_error ?l ?x = Some _, E' : nth_error ?l ?x = Some _ |- _ => rewrite E in E'; injection E' as <-; try subst end. auto.
Qed.

Lemma sys_write_inv f w fd data w' r i pos c : sys f w (SWrite fd data) w' r ->
  nth_error (w_fds w) fd = Some (i, pos) -> nth_error (w_inodes w) i = Some c ->
  faulted f w w' r \/
  exists k, k <= len data /\ (0 < k \/ f = true) /\
  w' = set_pos (set_content w i (takeN pos c ++ takeN k data ++ dropN (pos + k) c)) fd i (pos + k) /\ r = RNum k.
Proof.
  intros H E1 E2; inv_sys H.
  repeat match goal with E : nth_error ?l ?x = Some _, E' : nth_error ?l ?x = Some _ |- _ => rewrite E in E'; injection E' as <-; try subst end.
  exists k; auto.
Qed.

Lemma sys_access f w p w' r : sys f w (SAccess p) w' r -> faulted f w w' r \/
  match name_at w p with None => w' = w /\ r = RFail ENOENT | Some _ => w' = w /\ r = RNum 0 end.
Proof. intros H; inv_sys H; match goal with E : name_at _ _ = _ |- _ => rewrite E end; auto. Qed.

Lemma sys_rename_noreplace f w p q w' r : sys f w (SRenameNoreplace p q) w' r -> faulted f w w' r \/
  match name_at w p with
  | None => w' = w /\ r = RFail ENOENT
  | Some n => match name_at w q with
              | Some _ => w' = w /\ r = RFail EEXIST
              | None => w' = put_name (del_name w p) q n /\ r = RNum 0
              end
  end.
Proof. intros H; inv_sys H; repeat match goal with E : name_at _ _ = _ |- _ => rewrite E; clear E end; auto. Qed.

Lemma sys_link f w p q w' r : sys f w (SLink p q) w' r -> faulted f w w' r \/
  match name_at w p with
  | None => w' = w /\ r = RFail ENOENT
  | Some n => match name_at w q with
              | Some _ => w' = w /\ r = RFail EEXIST
              | None => match n with
                        | NFile i => w' = put_name w q (NFile i) /\ r = RNum 0
                        | _ => w' = w /\ r = RFail EPERM
                        end
              end
  end.
Proof.
  intros H; inv_sys H; repeat match goal with E : name_at _ _ = _ |- _ => rewrite E; clear E end; auto. destruct n; auto.
  match goal with H : forall i, NFile _ <> NFile i |- _ => exfalso; exact (H _ eq_refl) end.
Qed.

Lemma sys_renameat f w p q w' r : sys f w (SRename p q) w' r -> faulted f w w' r \/
  match name_at w p with
  | None => w' = w /\ r = RFail ENOENT
  | Some n => w' = put_name (del_name w p) q n /\ r = RNum 0 /\ name_at w q <> Some NDir
  end.
Proof. intros H; inv_sys H; match goal with E : name_at _ p = _ |- _ => rewrite E end; auto. Qed.

Lemma sys_symlink f w t p w' r : sys f w (SSymlink t p) w' r -> faulted f w w' r \/
  match name_at w p with
  | Some _ => w' = w /\ r = RFail EEXIST
  | None => (w' = w /\ r = RFail ENOENT) \/ (w' = put_name w p (NLink t) /\ r = RNum 0)
  end.
Proof. intros H; inv_sys H; match goal with E : name_at _ p = _ |- _ => rewrite E end; auto. Qed.

Lemma sys_opendir f w p w' r : sys f w (SOpenDir p) w' r -> faulted f w w' r \/
  (w' = w /\ ((r = RNum 0 /\ name_at w p = Some NDir) \/ exists e, r = RFail e)).
Proof. intros H. inversion H; subst; solve [left; unfold faulted; eauto 6|right; split; [reflexivity|eauto]]. Qed.

Lemma sys_list f w d w' r : sys f w (SList d) w' r -> faulted f w w' r \/ exists l, w' = w /\ r = RNames l /\ Permutation.Permutation l (dir_entries w d).
Proof. intros H. inversion H; subst; solve [left; unfold faulted; eauto 6|right; eauto]. Qed.

Lemma sys_random f w w' r : sys f w SRandom w' r -> faulted f w w' r \/ exists v, w' = w /\ r = RNum v /\ v < two64.
Proof. intros H; inv_sys H. eauto. Qed.

(** ** Names *)

Lemma assoc_remove {A} (l : list (list N * A)) p q : assoc (remove l p) q = if beq p q then None else assoc l q.
Proof.
  induction l as [|[x y] l IH]; cbn; [destruct (beq p q); reflexivity|].
  destruct (beq x p) eqn:E1.
  - rewrite IH. apply beq_eq in E1. subst x. destruct (beq p q); reflexivity.
  - cbn. rewrite IH. destruct (beq x q) eqn:E2; [|reflexivity]. apply beq_eq in E2. subst x.
    destruct (beq p q) eqn:E3; [|reflexivity]. apply beq_eq in E3. subst. rewrite beq_refl in E1. discriminate.
Qed.

Lemma name_put w p n q : name_at (put_name w p n) q = if beq p q then Some n else name_at w q.
Proof. unfold name_at, put_name. cbn. rewrite assoc_remove. destruct (beq p q); reflexivity. Qed.

Lemma name_del w p q : name_at (del_name w p) q = if beq p q then None else name_at w q.
Proof. apply assoc_remove. Qed.

Lemma name_add_file w p q : name_at (add_file w p) q = if beq p q then Some (NFile (length (w_inodes w))) else name_at w q.
Proof. reflexivity. Qed.

Lemma name_add_fd w i q : name_at (add_fd w i) q = name_at w q. Proof. reflexivity. Qed.
Lemma name_set_pos w fd i pos q : name_at (set_pos w fd i pos) q = name_at w q. Proof. reflexivity. Qed.
Lemma name_set_content w i c q : name_at (set_content w i c) q = name_at w q. Proof. reflexivity. Qed.

Lemma existsb_in_dir w p q : existsb (in_dir p) (w_names w) = false -> name_at w q <> None -> dirname q <> p.
Proof.
  unfold name_at. intros H Hn E. assert (exists n, In (q, n) (w_names w)) as [n Hin].
  { clear -Hn. induction (w_names w) as [|[x y] l IH]; cbn in *; [congruence|].
    destruct (beq x q) eqn:Eb; [apply beq_eq in Eb; subst; eauto|]. destruct (IH Hn) as [n Hin]. eauto. }
  assert (existsb (in_dir p) (w_names w) = true); [|congruence]. apply existsb_exists. exists (q, n). split; [exact Hin|].
  unfold in_dir. cbn [fst]. rewrite E. apply beq_refl.
Qed.
