(** C19: archives are canonical. *)
From Coq Require Import Sorted Permutation.
From Verif Require Import Base FeatureFlags ArchiveBase Bst Encoder EncoderSpec EncoderProofs EncoderProofs2 EncoderProofs3.
Local Open Scope N_scope.

(** C19. Whatever order directory entries and extended attributes are listed in, whatever sorting routine the C library
    has, and however the output is fetched: every encoding of a file tree has the same outcome and, if it succeeds, yields
    the same archive. And there is an encoding. *)
Theorem encoding_canonical :
  forall ev1 ev2 f1 f2 e1 e2 o1 r1 o2 r2, same_env ev1 ev2 -> same_tree f1 f2 -> distinct_names f1 ->
  encoder_new f1 = Ok e1 -> encoder_new f2 = Ok e2 -> eruns ev1 e1 o1 r1 -> eruns ev2 e2 o2 r2 ->
  r1 = r2 /\ (r1 = EFinished -> o1 = o2).
Proof. exact canonical. Qed.
Print Assumptions encoding_canonical.

Theorem encoding_terminates :
  forall ev f e, encoder_new f = Ok e -> exists o r, eruns ev e o r.
Proof. intros ev f e H. apply eruns_total, (J_new ev f e H). Qed.
Print Assumptions encoding_terminates.

(** * A case *)
Fixpoint insert {A} (cmp : A -> A -> comparison) (x : A) (l : list A) : list A :=
  match l with
  | [] => [x]
  | y :: l' => match cmp x y with Gt => y :: insert cmp x l' | _ => x :: l end
  end.
Definition isort (A : Type) (cmp : A -> A -> comparison) (l : list A) : list A := fold_right (insert cmp) [] l.
Lemma insert_perm A cmp (x : A) l : Permutation (x :: l) (insert cmp x l).
Proof.
  induction l as [|y l IH]; [reflexivity|]. cbn. destruct (cmp x y); try reflexivity.
  rewrite perm_swap. constructor. exact IH.
Qed.
Lemma insert_sorted A cmp (x : A) l : orders cmp -> StronglySorted (fun x y => cmp x y <> Gt) l ->
  StronglySorted (fun x y => cmp x y <> Gt) (insert cmp x l).
Proof.
  intros (O1 & O2 & O3) H. induction H as [|y l H IH F]; [constructor; constructor|]. cbn.
  assert (X : cmp x y <> Gt -> StronglySorted (fun x y => cmp x y <> Gt) (x :: y :: l)).
  { intros G. constructor; [constructor; auto|]. constructor; [exact G|]. eapply Forall_impl; [|exact F]. intros z Z. eauto. }
  destruct (cmp x y) eqn:C; [apply X; discriminate|apply X; discriminate|].
  constructor; [exact IH|]. rewrite <- insert_perm. constructor; [|exact F]. rewrite O2, C. discriminate.
Qed.
Lemma isort_ok : qsort_ok isort.
Proof.
  intros A cmp l O. unfold isort. induction l as [|x l [IH1 IH2]]; cbn; [split; constructor|]. split.
  - rewrite <- insert_perm. constructor. exact IH1.
  - apply insert_sorted; auto.
Qed.

Definition sta (mode : N) (xs : list (list N * list N)) : fstat :=
  mkFstat mode 1000 1000 5 0 false None 0 0 false false None xs [] [] 0.
Definition n_ux : list N := str_user_ ++ [120].
Definition n_uy : list N := str_user_ ++ [121].
Definition case_tree : fnode := FDir (sta 0x41ED [(n_uy, [1]); (n_ux, [2])])
  [([98], FReg (sta 0x81A4 []) 3 [7; 8; 9]); ([97], FDir (sta 0x41ED []) []); ([99], FLnk (sta 0xA1FF []) [98])].
Definition case_tree' : fnode := FDir (sta 0x41ED [(n_ux, [2]); (n_uy, [1])])
  [([99], FLnk (sta 0xA1FF []) [98]); ([97], FDir (sta 0x41ED []) []); ([98], FReg (sta 0x81A4 []) 3 [7; 8; 9])].
Definition case_ff : N := bor [WITH_32BIT_UIDS; WITH_PERMISSIONS; WITH_SEC_TIME; WITH_SYMLINKS; WITH_XATTRS; SHA512_256].
Definition case_env : eenv :=
  mkEenv case_ff 1000000000 0 0 (fun _ => None) (fun _ => None) (fun n => rd64 (n ++ repeat 0 8)) (fun _ _ _ => false) isort.

Lemma sta_same mode xs ys : Permutation xs ys -> same_stat (sta mode xs) (sta mode ys).
Proof. intros H. constructor; try reflexivity. exact H. Qed.
Example encoding_case :
  exists e1 e2 o, case_tree <> case_tree' /\ same_env case_env case_env /\ same_tree case_tree case_tree' /\ distinct_names case_tree /\
    encoder_new case_tree = Ok e1 /\ encoder_new case_tree' = Ok e2 /\ eruns case_env e1 o EFinished /\ eruns case_env e2 o EFinished /\
    len o = 547.
Proof.
  destruct (encoder_new case_tree) as [e1| | |] eqn:N1; try discriminate.
  destruct (encoder_new case_tree') as [e2| | |] eqn:N2; try discriminate.
  destruct (encoding_terminates case_env case_tree e1 N1) as (o1 & r1 & R1).
  destruct (encoding_terminates case_env case_tree' e2 N2) as (o2 & r2 & R2).
  assert (SE : same_env case_env case_env) by (constructor; try reflexivity; exact isort_ok).
  assert (ST : same_tree case_tree case_tree').
  { eapply same_dir with (mid := [([99], FLnk (sta 0xA1FF []) [98]); ([97], FDir (sta 0x41ED []) []); ([98], FReg (sta 0x81A4 []) 3 [7; 8; 9])]).
    - apply sta_same, perm_swap.
    - eapply perm_trans; [apply perm_swap|]. eapply perm_trans; [apply perm_skip, perm_swap|]. apply perm_swap.
    - constructor; [split; [reflexivity|]; apply same_lnk, sta_same; constructor|].
      constructor; [split; [reflexivity|]; eapply same_dir; [apply sta_same; constructor|constructor|constructor]|].
      constructor; [split; [reflexivity|]; apply same_reg, sta_same; constructor|constructor]. }
  assert (D : distinct_names case_tree).
  { apply dn_dir.
    - cbn. constructor; [cbn; intros [H | []]; discriminate|]. constructor; [intros []|constructor].
    - cbn. constructor; [cbn; intros [H | [H | []]]; discriminate|]. constructor; [cbn; intros [H | []]; discriminate|].
      constructor; [intros []|constructor].
    - constructor; [constructor; constructor|]. constructor; [constructor; constructor|]. constructor; [|constructor].
      constructor. constructor. }
  destruct (encoding_canonical _ _ _ _ _ _ _ _ _ _ SE ST D N1 N2 R1 R2) as [A B].
  pose proof (new_runs _ _ _ _ _ N1 R1) as [(m & M1 & M2) M3].
  assert (Q : snd (encode case_env case_tree) = Ok (547, snd (match snd (encode case_env case_tree) with Ok x => x | _ => (0, ecache0) end)))
    by (vm_compute; reflexivity).
  cbn [fst snd] in M1, M2, M3. rewrite Q in M3. subst r1 r2. rewrite (B eq_refl) in *. rewrite (M2 eq_refl), app_nil_r in M1.
  exists e1, e2, o2. split; [discriminate|].
  split; [exact SE|]. split; [exact ST|]. split; [exact D|]. split; [reflexivity|]. split; [reflexivity|].
  split; [exact R1|]. split; [exact R2|]. rewrite <- M1. vm_compute. reflexivity.
Qed.
