(** Finishing a child stays within its bounds. *)
From Coq Require Import Permutation.
From Verif Require Import Base FeatureFlags ArchiveBase Decoder DecoderSpec DecoderProofs5 Fs Extract ExtractSpec ExtractProofs1 ExtractProofs2 ExtractProofs3.
Local Open Scope N_scope.

Section Programs.
Variables (fe : fenv) (cfg : xcfg) (w0 : fs) (b : N).
Hypothesis Hfe : sound_env fe.
Hypothesis Hw0 : sound_fs w0.
Notation undo := (c_undo cfg).
Notation okw := (okw undo w0 b).
Notation ours := (ours w0 b).
Notation odir := (odir w0 b).
Notation new := (new w0).
Notation good := (good undo w0 b).
Notation legal := (legal undo w0 b).
Notation ok := (ok fe cfg w0 b).
Notation made := (made w0 b).

Lemma odir_stable w w1 i : odir w i -> stable w w1 -> odir w1 i.
Proof.
  intros [H1 (a & ents & E)] [_ S]. split; [exact H1|]. destruct (S _ _ E) as ([a1 b1] & E1 & K1). cbn in K1.
  destruct b1; try discriminate. exists a1, ents0. exact E1.
Qed.

(** ** Installing *)
Lemma ok_drop_immutable d n w : okw w None -> ours d -> is_component n -> undo = true -> ok (drop_immutable d n) w None (still None).
Proof.
  intros K Hd Hn U. unfold drop_immutable. eapply ok_bind; [exact K|apply ok_open; auto|]. cbn beta. intros r w1 M1 K1 S1 [-> Hr].
  destruct r as [i|[]| |]; try reflexivity. eapply ok_bind; [exact K1|apply ok_sys; [exact Hw0|exact K1|exact I]|]. intros r w2 M2 K2 S2 ->.
  destruct r as [x| | |]; try reflexivity. destruct x as [| |nd| | | |]; try reflexivity.
  assert (O : ok (do! c <- sysnum (CDropImm i) ;; Ret (Ok (negb (c =? 0)))) w2 None (still None)).
  { eapply ok_bind; [exact K2|apply ok_sysnum; [exact Hw0|exact K2|split; [exact U|destruct (Hr i eq_refl); auto]]|]. intros r w3 M3 K3 S3 ->. destruct r; reflexivity. }
  destruct (i_body nd); try reflexivity; exact O.
Qed.
Lemma ok_retrying c d n w M : okw w M -> ours d -> is_component n -> (forall w, legal w None c) -> ok (retrying cfg c d n) w M (still None).
Proof.
  intros K Hd Hn L. unfold retrying. cbn [sys pbind]. apply ok_drop; [exact Hw0|exact K|apply L|]. intros t x w1 Hr K1 S1. cbn [pbind].
  assert (O : ok (match x with RFail e => match e with EPERM => if negb undo then Ret (Ok (Err EPERM))
      else do! dropped <- drop_immutable d n ;;
           if dropped : bool then pbind (sys c) (fun r => Ret (Ok (match r with Ok _ => Ok tt | Err e => Err e | Abort => Abort | UB => UB end)))
           else Ret (Ok (Err EPERM)) | e => Ret (Ok (Err e)) end | _ => Ret (Ok (Ok tt)) end) w1 None (still None)).
  { destruct x as [| | | | | |e]; try reflexivity. destruct e; try reflexivity. destruct (negb undo) eqn:U; [reflexivity|]. apply negb_false_iff in U.
    eapply ok_bind; [exact K1|apply ok_drop_immutable; auto|]. intros r w2 M2 K2 S2 ->. destruct r as [[|]| | |]; try reflexivity.
    eapply ok_bind; [exact K2|apply ok_sys; auto|]. intros r w3 M3 K3 S3 ->. reflexivity. }
  destruct x as [| | | | | |e]; exact O.
Qed.
Lemma ok_install d t own w M : okw w M -> ours d -> is_component t -> is_component own -> ok (install_file cfg d t own) w M (still None).
Proof.
  intros K Hd Ht Ho. unfold install_file.
  eapply ok_bind; [exact K|apply ok_retrying; [exact K|exact Hd|exact Ho|intros; cbn; auto]|]. intros r w1 M1 K1 S1 ->. destruct r as [r| | |]; try reflexivity.
  assert (O : forall F, F = (fun r : res unit => match r with
      | Ok _ => rm_rf_at (c_undo cfg) (c_depth cfg) d t
      | _ => pbind (rm_rf_at (c_undo cfg) (c_depth cfg) d own) (fun r =>
             match r with
             | UB => Ret UB | Abort => Ret Abort
             | _ => do! _ <- sys (CRename d t own) ;; Ret (Ok tt)
             end)
      end) -> ok (do! r <- retrying cfg (CExchange d t own) d own ;; F r) w1 None (still None)).
  { intros F ->. eapply ok_bind; [exact K1|apply ok_retrying; [exact K1|exact Hd|exact Ho|intros; cbn; auto]|]. intros r2 w2 M2 K2 S2 ->.
    destruct r2 as [r2| | |]; try reflexivity.
    assert (O2 : ok (pbind (rm_rf_at (c_undo cfg) (c_depth cfg) d own) (fun r =>
             match r with
             | UB => Ret UB | Abort => Ret Abort
             | _ => do! _ <- sys (CRename d t own) ;; Ret (Ok tt)
             end)) w2 None (still None)).
    { eapply ok_bind; [exact K2|apply ok_rm_rf_at; auto|]. intros r3 w3 M3 K3 S3 ->.
      assert (O3 : ok (do! _ <- sys (CRename d t own) ;; Ret (Ok tt)) w3 None (still None)).
      { eapply ok_bind; [exact K3|apply ok_sys; [exact Hw0|exact K3|cbn; auto]|]. intros r4 w4 M4 K4 S4 ->. destruct r4; reflexivity. }
      destruct r3; try reflexivity; exact O3. }
    destruct r2; try exact O2. apply ok_rm_rf_at; auto. }
  destruct r as [|[]| |]; try reflexivity; apply O; reflexivity.
Qed.

(** ** Attributes *)
(** [i] is the file that is finished. *)
Definition handle (w : fs) (M : option N) (dirfd : option N) (x : xnode) (name : list N) (i : N) : Prop :=
  (odir w i \/ M = Some i) /\
  (exists n1, f_ino w i = Some n1 /\ (x_fd x <> None -> kind (i_body n1) <> 2)) /\
  (x_fd x = Some i \/ (x_fd x = None /\ M = Some i /\ exists d, dirfd = Some d /\ is_component name /\ target w d name i)).
Definition seen (w : fs) (i : N) (nd : inode) : Prop :=
  exists n1, f_ino w i = Some n1 /\ kind (i_body n1) = kind (i_body nd) /\ (kind (i_body nd) = 2 -> a_perm (i_attrs nd) = 0x1FF).
Lemma seen_stable w w1 i nd : seen w i nd -> stable w w1 -> seen w1 i nd.
Proof. intros (n1 & A & B & C) [_ S]. destruct (S _ _ A) as (n2 & D & E). exists n2. repeat split; [exact D|congruence|exact C]. Qed.

Definition same_bodies (w w1 : fs) : Prop := forall j, option_map i_body (f_ino w1 j) = option_map i_body (f_ino w j).
Lemma target_bodies w w1 d n i : same_bodies w w1 -> target w d n i -> target w1 d n i.
Proof.
  intros S (nd & ents & H1 & H2). destruct (dir_at_dir _ _ _ _ H1) as (_ & H3 & H4). specialize (S d). rewrite H3 in S. cbn in S.
  destruct (f_ino w1 d) as [y|] eqn:E; cbn in S; [|discriminate]. injection S as S. exists y, ents. split; [|exact H2].
  unfold dir_at. rewrite E, S, H4. reflexivity.
Qed.
Lemma handle_same w w1 M dirfd x name i : handle w M dirfd x name i -> stable w w1 -> (x_fd x = None -> same_bodies w w1) -> handle w1 M dirfd x name i.
Proof.
  intros (H1 & (n1 & H2 & H3) & H4) S B. split; [|split].
  - destruct H1; [left; eapply odir_stable; eassumption|right; assumption].
  - destruct (proj2 S _ _ H2) as (n2 & A & C). exists n2. split; [exact A|]. rewrite C. exact H3.
  - destruct H4 as [H4 | (H4 & H5 & d & H6 & H7 & H8)]; [left; exact H4|]. right. repeat split; auto. exists d. repeat split; auto.
    1-5: apply H7. eapply target_bodies; eauto.
Qed.

Definition touching (c : call) : Prop :=
  match c with
  | CStat _ | CStatAt _ _ | CReadlink _ _ _ | CChown _ _ _ | CChownAt _ _ _ _ | CChmod _ _ | CChmodAt _ _ _ | CUtime _ _ | CUtimeAt _ _ _ => True
  | _ => False
  end.
Lemma change_bodies w i f x w1 : change w i f = (x, w1) -> same_bodies w w1.
Proof.
  unfold change, on_ino. intros H j. destruct (f_ino w i) as [nd|] eqn:E; [|injection H as _ <-; reflexivity].
  destruct (a_imm _); injection H as _ <-; [reflexivity|]. rewrite f_set. destruct (N.eqb_spec j i) as [-> | _]; [rewrite E; reflexivity|reflexivity].
Qed.
Lemma touching_bodies w c t x w1 : touching c -> result_of fe t w c = (x, w1) -> same_bodies w w1.
Proof.
  intros Hc H. assert (R : same_bodies w w) by (intros j; reflexivity).
  assert (D : fs_do fe w c = (x, w1) \/ w1 = w).
  { destruct t; cbn [result_of] in H; [left; exact H|injection H as _ <-; right; reflexivity|]. destruct c; try contradiction; left; exact H. }
  destruct D as [D | ->]; [|exact R]. clear H.
  destruct c; try contradiction; cbn [fs_do] in D; unfold on_name, on_dir in D;
    repeat match type of D with
    | change _ _ _ = _ => fail 1
    | match ?c with _ => _ end = _ => destruct c
    end; try (injection D as _ <-; exact R); eapply change_bodies; exact D.
Qed.

Definition hold (M : option N) dirfd x name i {A} : res A -> fs -> option N -> Prop := fun _ w1 M1 => M1 = M /\ handle w1 M dirfd x name i.

Lemma ok_on_child dirfd x name byfd byname i w M : okw w M -> handle w M dirfd x name i -> (forall i, touching (byfd i)) -> (forall d n, touching (byname d n)) ->
  legal w M (byfd i) \/ x_fd x = None -> (forall d, is_component name -> target w d name i -> M = Some i -> legal w M (byname d name)) ->
  ok (on_child dirfd x name byfd byname) w M (fun r w1 M1 => M1 = M /\ handle w1 M dirfd x name i).
Proof.
  intros K H T1 T2 L1 L2. unfold on_child.
  assert (X : forall c, touching c -> legal w M c -> ok (sys c) w M (fun r w1 M1 => M1 = M /\ handle w1 M dirfd x name i)).
  { intros c Tc Lc. apply ok_call; [exact Hw0|exact K|exact Lc|]. intros t y w1 Hr K1 S1. cbn. split; [reflexivity|].
    eapply handle_same; [exact H|exact S1|]. intros _. eapply touching_bodies; eassumption. }
  destruct H as (H1 & H2 & [H3 | (H3 & H4 & d & H5 & H6 & H7)]); rewrite H3 in *.
  - destruct L1 as [L1 | L1]; [|discriminate]. apply X; auto.
  - rewrite H5 in *. apply X; auto.
Qed.

Lemma ok_stat_child dirfd x name i w M : okw w M -> handle w M dirfd x name i ->
  ok (stat_child dirfd x name) w M (fun r w1 M1 => M1 = M /\ handle w1 M dirfd x name i /\ forall nd, r = Ok nd -> seen w1 i nd).
Proof.
  intros K H. unfold stat_child. 
  assert (SN : forall nd, f_ino w i = Some nd -> seen w i nd).
  { intros nd E. exists nd. repeat split; [exact E|]. intros Hk. destruct (i_body nd) eqn:B; try discriminate.
    assert (Hn : new i).
    { destruct (proj1 H) as [[_ D] | HM]; [exfalso; eapply dir_not_lnk; [exact D|exact E|rewrite B; reflexivity]|apply (K_mine _ _ _ _ _ K i HM)]. }
    eapply (K_lnk _ _ _ _ _ K); eassumption. }
  assert (X : forall c, (forall t y w1, result_of fe t w c = (y, w1) -> w1 = w /\ forall nd, y = RStat nd -> f_ino w i = Some nd) ->
    ok (do! r <- sys c ;; match r with RStat nd => Ret (Ok nd) | _ => Ret UB end) w M (fun r w1 M1 => M1 = M /\ handle w1 M dirfd x name i /\ forall nd, r = Ok nd -> seen w1 i nd)).
  { intros c Hc. cbn [sys pbind ok]. intros t y w1 Hr. destruct (Hc _ _ _ Hr) as [-> Hy]. exists M. split; [apply good_refl, K|].
    destruct y; cbn; (split; [reflexivity|split; [exact H|]]); intros nd0 E; try discriminate. injection E as <-. apply SN, Hy. reflexivity. }
  unfold on_child. destruct (proj2 (proj2 H)) as [H3 | (H3 & H4 & d & H5 & H6 & H7)]; rewrite H3.
  - apply X. intros t y w1 Hr. destruct t; cbn [result_of fs_do] in Hr; [|injection Hr as <- <-; split; [reflexivity|discriminate]|];
      (destruct (f_ino w i) as [nd1|] eqn:E; injection Hr as <- <-; split; auto; intros nd Hnd; [injection Hnd as <-; reflexivity|discriminate]).
  - rewrite H5 in X |- *. apply X. intros t y w1 Hr. destruct H7 as (nd0 & ents & A1 & A2).
    destruct t; cbn [result_of fs_do] in Hr; [|injection Hr as <- <-; split; [reflexivity|discriminate]|];
      unfold on_name, on_dir in Hr; rewrite where_plain in Hr by assumption; rewrite A1, A2 in Hr;
      (destruct (f_ino w i) as [nd1|] eqn:E; injection Hr as <- <-; split; auto; intros nd Hnd; [injection Hnd as <-; reflexivity|discriminate]).
Qed.

Lemma legal_fd w M i x name dirfd c : handle w M dirfd x name i -> (odir w i \/ M = Some i -> legal w M c) -> legal w M c \/ x_fd x = None.
Proof. intros (H & _ & _) L. left. auto. Qed.

Lemma ok_restore_owner replay dirfd x name m nd i w M : okw w M -> handle w M dirfd x name i -> seen w i nd ->
  ok (restore_owner cfg replay dirfd x name m nd) w M (fun r w1 M1 => M1 = M /\ handle w1 M dirfd x name i /\ forall nd, r = Ok nd -> seen w1 i nd).
Proof.
  intros K H S. unfold restore_owner.
  assert (D : forall r : res inode, (forall nd', r = Ok nd' -> nd' = nd) -> ok (Ret r) w M (fun r w1 M1 => M1 = M /\ handle w1 M dirfd x name i /\ forall nd, r = Ok nd -> seen w1 i nd)).
  { intros r Hr. cbn. split; [reflexivity|]. split; [exact H|]. intros nd' E. rewrite (Hr _ E). exact S. }
  destruct (negb _); [apply D; congruence|].
  destruct (owner_of _ _ _ (m_user m) (m_uid m)) as [uid| | |]; try (apply D; congruence).
  destruct (owner_of _ _ _ (m_group m) (m_gid m)) as [gid| | |]; try (apply D; congruence).
  destruct (_ && _)%bool; [apply D; congruence|].
  eapply ok_bind; [exact K|apply ok_on_child with (i := i); auto; try (intros; exact I)|].
  - eapply legal_fd; [exact H|]. intros X. exact X.
  - intros d Hc Ht HM. split; [exact Hc|]. exists i. auto.
  - cbn beta. intros r w1 M1 K1 S1 [-> H1]. destruct r; try (cbn; split; [reflexivity|split; [exact H1|discriminate]]).
    apply ok_stat_child; assumption.
Qed.

Lemma ok_restore_perm replay dirfd x name m nd i w M : okw w M -> handle w M dirfd x name i -> seen w i nd ->
  (kind (i_body nd) = 2 -> m_mode m = S_IFLNK + 0x1FF) ->
  ok (restore_perm replay dirfd x name m nd) w M (hold M dirfd x name i).
Proof.
  intros K H S Hl. unfold restore_perm.
  assert (D : forall r : res unit, ok (Ret r) w M (hold M dirfd x name i)) by (intros r; cbn; split; [reflexivity|exact H]).
  assert (C : kind (i_body nd) <> 2 -> forall q, ok (do! _ <- on_child dirfd x name (fun i => CChmod i q) (fun d n => CChmodAt d n q) ;; Ret (Ok tt)) w M (hold M dirfd x name i)).
  { intros Hk q. assert (Hnl : not_lnk w i).
    { destruct S as (n1 & A & B & _). intros n2 E. assert (n2 = n1) by congruence. subst n2. congruence. }
    eapply ok_bind; [exact K|apply ok_on_child with (i := i); auto; try (intros; exact I)|].
    - eapply legal_fd; [exact H|]. intros [X | X]; [left; exact X|right; auto].
    - intros d Hc Ht HM. split; [exact Hc|]. exists i. auto.
    - cbn beta. intros r w1 M1 K1 S1 [-> H1]. destruct r; cbn; split; auto. }
  destruct (N.eq_dec (kind (i_body nd)) 2) as [Hk | Hk].
  - destruct S as (n1 & _ & _ & S). rewrite (Hl Hk), (S Hk).
    assert (is_dir nd = false) by (unfold is_dir; destruct (i_body nd); try discriminate; reflexivity). rewrite H0.
    destruct (has replay WITH_READ_ONLY); [apply D|]. destruct (has replay _); [apply D|apply D].
  - specialize (C Hk). repeat match goal with |- ok (if ?c then _ else _) _ _ _ => destruct c end; auto.
Qed.

Lemma ok_remove_xattrs i keep l dirfd x name : forall w M, okw w M -> handle w M dirfd x name i -> x_fd x = Some i ->
  ok (remove_xattrs i keep l) w M (hold M dirfd x name i).
Proof.
  induction l as [|n l IH]; intros w M K H Hx; cbn [remove_xattrs]; [split; [reflexivity|exact H]|].
  destruct (_ || _)%bool; [apply IH; assumption|].
  eapply ok_bind; [exact K|apply ok_sys; [exact Hw0|exact K|apply H]|]. intros r w1 M1 K1 S1 ->.
  assert (H1 : handle w1 M dirfd x name i) by (eapply handle_same; [exact H|exact S1|congruence]).
  destruct r; try (split; [reflexivity|exact H1]). apply IH; assumption.
Qed.
Lemma ok_set_xattrs i l dirfd x name : forall w M, okw w M -> handle w M dirfd x name i -> x_fd x = Some i ->
  ok (set_xattrs i l) w M (hold M dirfd x name i).
Proof.
  induction l as [|[n v] l IH]; intros w M K H Hx; cbn [set_xattrs]; [split; [reflexivity|exact H]|].
  eapply ok_bind; [exact K|apply ok_sys; [exact Hw0|exact K|apply H]|]. intros r w1 M1 K1 S1 ->.
  assert (H1 : handle w1 M dirfd x name i) by (eapply handle_same; [exact H|exact S1|congruence]).
  destruct r; try (split; [reflexivity|exact H1]). apply IH; assumption.
Qed.
Lemma handle_fd w M dirfd x name i j : handle w M dirfd x name i -> x_fd x = Some j -> j = i.
Proof. intros (_ & _ & [H | (H & _)]) E; congruence. Qed.
Lemma ok_restore_xattrs replay dirfd x name m nd i w M : okw w M -> handle w M dirfd x name i ->
  ok (restore_xattrs replay x m nd) w M (hold M dirfd x name i).
Proof.
  intros K H. unfold restore_xattrs. destruct (x_fd x) as [j|] eqn:Ex; [|split; [reflexivity|exact H]].
  pose proof (handle_fd _ _ _ _ _ _ _ H Ex). subst j.
  destruct (_ && _)%bool; [|split; [reflexivity|exact H]].
  eapply ok_bind; [exact K|apply ok_sys; [exact Hw0|exact K|exact I]|]. intros r w1 M1 K1 S1 ->.
  assert (H1 : handle w1 M dirfd x name i) by (eapply handle_same; [exact H|exact S1|congruence]).
  assert (O : ok (set_xattrs i (m_xattrs m)) w1 M (hold M dirfd x name i)) by (apply ok_set_xattrs; assumption).
  destruct r as [y|e| |]; try (split; [reflexivity|exact H1]).
  - destruct y; try (split; [reflexivity|exact H1]).
    eapply ok_bind; [exact K1|eapply ok_remove_xattrs; [exact K1|exact H1|exact Ex]|]. intros r w2 M2 K2 S2 [-> H2].
    destruct r; try (split; [reflexivity|exact H2]). apply ok_set_xattrs; assumption.
  - destruct e; try (split; [reflexivity|exact H1]); exact O.
Qed.
Lemma ok_restore_fcaps replay dirfd x name m nd i w M : okw w M -> handle w M dirfd x name i ->
  ok (restore_fcaps replay x m nd) w M (hold M dirfd x name i).
Proof.
  intros K H. unfold restore_fcaps. destruct (x_fd x) as [j|] eqn:Ex; [|split; [reflexivity|exact H]].
  pose proof (handle_fd _ _ _ _ _ _ _ H Ex). subst j.
  destruct (i_body nd); try (split; [reflexivity|exact H]). destruct (has replay WITH_FCAPS); [|split; [reflexivity|exact H]].
  assert (X : forall w1 c, okw w1 M -> handle w1 M dirfd x name i -> legal w1 M c -> ok (do! _ <- sys c ;; Ret (Ok tt)) w1 M (hold M dirfd x name i)).
  { intros w1 c K1 H1 L. eapply ok_bind; [exact K1|apply ok_sys; [exact Hw0|exact K1|exact L]|]. intros r w2 M2 K2 S2 ->.
    assert (H2 : handle w2 M dirfd x name i) by (eapply handle_same; [exact H1|exact S2|congruence]).
    destruct r; (split; [reflexivity|exact H2]). }
  destruct (m_fcaps m) as [v|]; [apply X; auto; apply H|].
  eapply ok_bind; [exact K|apply ok_sys; [exact Hw0|exact K|exact I]|]. intros r w1 M1 K1 S1 ->.
  assert (H1 : handle w1 M dirfd x name i) by (eapply handle_same; [exact H|exact S1|congruence]).
  destruct r as [y|e| |]; try (split; [reflexivity|exact H1]); [apply X; auto; apply H1|].
  destruct e; (split; [reflexivity|exact H1]).
Qed.

(** ** Deleting what isn't in the archive *)
Lemma ok_delete_others i dirents l : forall w M, okw w M -> ours i -> (forall n k, In (n, k) l -> is_component n) -> ok (delete_others cfg i dirents l) w M (still M).
Proof.
  induction l as [|[n k] l IH]; intros w M K Hi Hl; cbn [delete_others]; [reflexivity|].
  assert (Hl' : forall n k, In (n, k) l -> is_component n) by (intros; eapply Hl; right; eassumption).
  destruct (safe_bsearch n dirents); [apply IH; assumption|].
  eapply ok_bind; [exact K|apply ok_rm_rf_at; auto; eapply Hl; left; reflexivity|]. intros r w1 M1 K1 S1 ->. destruct r; try reflexivity. apply IH; assumption.
Qed.
Lemma ok_node_delete i dirents w M : okw w M -> ours i -> ok (node_delete cfg i dirents) w M (still M).
Proof.
  intros K Hi. unfold node_delete. destruct (negb _); [reflexivity|].
  eapply ok_bind; [exact K|apply ok_readdir; assumption|]. cbn beta. intros r w1 M1 K1 S1 [-> Hr]. destruct r as [y| | |]; try reflexivity.
  destruct y; try reflexivity. apply ok_delete_others; [exact K1|exact Hi|apply Hr; reflexivity].
Qed.

(** ** ca_decoder_finalize_child *)
Definition stops {A} : res A -> fs -> option N -> Prop := fun r _ M1 => match r with Ok _ => M1 = None | _ => True end.

Lemma is_type_lnk mode : is_type mode S_IFLNK = (N.land mode S_IFMT =? S_IFLNK). Proof. reflexivity. Qed.
Lemma mode_of_shape e : entry_shape e -> valid_meta (dt_meta e).
Proof. intros []; assumption. Qed.

Lemma ok_finalize replay dirfd x own e w M : okw w M -> made w M dirfd replay x (m_mode (dt_meta e)) -> entry_shape e ->
  (forall d, dirfd = Some d -> odir w d /\ is_component own) -> (dirfd = None -> x_tmp x = None /\ x_fd x <> None) ->
  ok (finalize_child cfg replay dirfd x own e) w M stops.
Proof.
  intros K [Ht H] He Hd Hd0. unfold finalize_child. set (m := dt_meta e) in *. set (mode := m_mode m) in *.
  (* the part after the early returns *)
  set (name := opt_or (x_tmp x) own).
  assert (Main : forall i, handle w M dirfd x name i -> (M <> None -> x_tmp x <> None) ->
    ok (do! nd <- stat_child dirfd x name ;;
        do! _ <- check_kind dirfd name e nd ;;
        do! _ <- match i_body nd, x_fd x with BDir _, Some i => node_delete cfg i (x_dirents x) | _, _ => Ret (Ok tt) end ;;
        do! nd <- restore_owner cfg replay dirfd x name m nd ;;
        do! _ <- restore_perm replay dirfd x name m nd ;;
        do! _ <- restore_xattrs replay x m nd ;;
        do! _ <- restore_fcaps replay x m nd ;;
        if has replay WITH_SELINUX && some (m_selinux m) then Ret (Err EOPNOTSUPP)
        else
        do! _ <- (if has replay WITH_TIMES
                  then do! _ <- on_child dirfd x name (fun i => CUtime i (m_mtime m)) (fun d n => CUtimeAt d n (m_mtime m)) ;; Ret (Ok tt)
                  else Ret (Ok tt)) ;;
        do! _ <- match x_tmp x, dirfd with
                 | Some t, Some d => install_file cfg d t own
                 | Some _, None => Ret Abort
                 | None, _ => Ret (Ok tt)
                 end ;;
        if has replay WITH_TIMES then
          do! nd <- stat_child dirfd x own ;;
          match time_granularity_nsec replay with
          | Ok g => if a_mtime (i_attrs nd) / g =? m_mtime m / g then Ret (Ok tt) else Ret (Err EOPNOTSUPP)
          | Err e => Ret (Err e) | Abort => Ret Abort | UB => Ret UB
          end
        else Ret (Ok tt)) w M stops).
  { intros i Hh HMt.
    assert (Hd1 : forall w1, stable w w1 -> forall d, dirfd = Some d -> odir w1 d /\ is_component own).
    { intros w1 S1 d E. destruct (Hd d E). split; [eapply odir_stable; eassumption|assumption]. }
    eapply ok_bind; [exact K|apply ok_stat_child; eassumption|]. cbn beta. intros r w1 M1 K1 S1 (-> & H1 & Hs1).
    destruct r as [nd| | |]; try exact I. specialize (Hs1 nd eq_refl).
    (* the kind *)
    assert (CK : ok (check_kind dirfd name e nd) w1 M (fun r w2 M2 => M2 = M /\ handle w2 M dirfd x name i /\ (forall u, r = Ok u -> kind (i_body nd) = 2 -> mode = S_IFLNK + 0x1FF))).
    { assert (Lk : kind (i_body nd) = 2 -> N.land mode S_IFMT =? type_of nd = true -> mode = S_IFLNK + 0x1FF).
      { intros Hk E. apply (vm_symlink _ (mode_of_shape _ He)). unfold type_of in E. destruct (i_body nd); try discriminate. exact E. }
      unfold check_kind. fold m. fold mode. destruct (N.land mode S_IFMT =? type_of nd) eqn:E; cbn [negb];
        [|split; [reflexivity|split; [exact H1|discriminate]]].
      assert (D : forall r, ok (Ret r) w1 M (fun (r : res unit) w2 M2 => M2 = M /\ handle w2 M dirfd x name i /\ (forall u, r = Ok u -> kind (i_body nd) = 2 -> mode = S_IFLNK + 0x1FF))).
      { intros r. split; [reflexivity|]. split; [exact H1|]. intros. apply Lk; auto. }
      destruct (i_body nd) eqn:B; try apply D.
      - destruct dirfd as [d|]; [|apply D]. destruct (dt_symlink e) as [tg|]; [|apply D].
        eapply ok_bind; [exact K1|eapply ok_weaken; [apply ok_call with (M := M) (Q := fun r w2 M2 => M2 = M /\ handle w2 M (Some d) x name i)|]|].
        + exact Hw0.
        + exact K1.
        + exact I.
        + intros t y w2 Hr K2 S2. cbn. split; [reflexivity|]. eapply handle_same; [exact H1|exact S2|]. intros _. eapply touching_bodies; [|exact Hr]. exact I.
        + intros r w2 M2 Q. exact Q.
        + cbn beta. intros r w2 M2 K2 S2 [-> H2]. 
          assert (D2 : forall r, ok (Ret r) w2 M (fun (r : res unit) w2 M2 => M2 = M /\ handle w2 M (Some d) x name i /\ (forall u, r = Ok u -> 2 = 2 -> mode = S_IFLNK + 0x1FF))).
          { intros r2. split; [reflexivity|]. split; [exact H2|]. intros. apply Lk; auto. }
          destruct r as [y| | |]; try apply D2. destruct y; try apply D2. destruct (beq _ _); apply D2.
      - destruct (match dt_dev e with Some _ => _ | None => _ end); apply D. }
    eapply ok_bind; [exact K1|exact CK|]. cbn beta. intros r w2 M2 K2 S2 (-> & H2 & Hl). destruct r as [u| | |]; try exact I. specialize (Hl u eq_refl).
    assert (Hs2 : seen w2 i nd) by (eapply seen_stable; eassumption).
    (* delete *)
    assert (DL : ok (match i_body nd, x_fd x with BDir _, Some i => node_delete cfg i (x_dirents x) | _, _ => Ret (Ok tt) end) w2 M (fun r w3 M3 => M3 = M /\ (x_fd x = None -> w3 = w2))).
    { destruct (i_body nd) eqn:B; try (split; auto; fail). destruct (x_fd x) as [j|] eqn:Ex; [|split; auto].
      eapply ok_weaken; [apply ok_node_delete; [exact K2|]|intros r w3 M3 ->; split; [reflexivity|discriminate]].
      pose proof (handle_fd _ _ _ _ _ _ _ H2 Ex). subst j. destruct (proj1 H2) as [[O _] | O]; [exact O|]. right. apply (K_mine _ _ _ _ _ K2 i O). }
    eapply ok_bind; [exact K2|exact DL|]. cbn beta. intros r w3 M3 K3 S3 [-> Hsame]. destruct r as [u3| | |]; try exact I.
    assert (H3 : handle w3 M dirfd x name i).
    { eapply handle_same; [exact H2|exact S3|]. intros E. rewrite (Hsame E). intros j. reflexivity. }
    assert (Hs3 : seen w3 i nd) by (eapply seen_stable; eassumption).
    (* owner *)
    eapply ok_bind; [exact K3|eapply ok_restore_owner; eassumption|]. cbn beta. intros r w4 M4 K4 S4 (-> & H4 & Hs4).
    destruct r as [nd4| | |]; try exact I. specialize (Hs4 nd4 eq_refl).
    assert (Hk4 : kind (i_body nd4) = kind (i_body nd)).
    { destruct Hs4 as (a & A1 & A2 & _). destruct (seen_stable _ _ _ _ Hs3 S4) as (c & C1 & C2 & _). assert (a = c) by congruence. congruence. }
    eapply ok_bind; [exact K4|eapply ok_restore_perm; [exact K4|exact H4|exact Hs4|rewrite Hk4; exact Hl]|]. intros r w5 M5 K5 S5 [-> H5]. destruct r; try exact I.
    eapply ok_bind; [exact K5|eapply ok_restore_xattrs; eassumption|]. intros r w6 M6 K6 S6 [-> H6]. destruct r; try exact I.
    eapply ok_bind; [exact K6|eapply ok_restore_fcaps; eassumption|]. intros r w7 M7 K7 S7 [-> H7]. destruct r; try exact I.
    destruct (_ && _)%bool; [exact I|].
    assert (UT : ok (if has replay WITH_TIMES then do! _ <- on_child dirfd x name (fun i => CUtime i (m_mtime m)) (fun d n => CUtimeAt d n (m_mtime m)) ;; Ret (Ok tt) else Ret (Ok tt)) w7 M (hold M dirfd x name i)).
    { destruct (has replay WITH_TIMES); [|split; [reflexivity|exact H7]].
      eapply ok_bind; [exact K7|apply ok_on_child with (i := i); auto; try (intros; exact I)|].
      - eapply legal_fd; [exact H7|]. intros X. exact X.
      - intros d Hc Htt HM. split; [exact Hc|]. exists i. auto.
      - cbn beta. intros r w8 M8 K8 S8 [-> H8]. destruct r; (split; [reflexivity|exact H8]). }
    eapply ok_bind; [exact K7|exact UT|]. intros r w8 M8 K8 S8 [-> H8]. destruct r; try exact I.
    assert (ST : stable w w8).
    { eapply stable_trans; [exact S1|]. eapply stable_trans; [exact S2|]. eapply stable_trans; [exact S3|]. eapply stable_trans; [exact S4|].
      eapply stable_trans; [exact S5|]. eapply stable_trans; [exact S6|]. eapply stable_trans; [exact S7|]. exact S8. }
    assert (IN : ok (match x_tmp x, dirfd with Some t, Some d => install_file cfg d t own | Some _, None => Ret Abort | None, _ => Ret (Ok tt) end) w8 M stops).
    { destruct (x_tmp x) as [t|] eqn:Et.
      - destruct dirfd as [d|]; [|exact I]. destruct (Hd1 w8 ST d eq_refl) as [Od Oo].
        eapply ok_weaken; [apply ok_install; [exact K8|apply Od|apply (Ht t eq_refl)|exact Oo]|]. intros r w9 M9 ->. destruct r; cbn; auto.
      - cbn. destruct M; [exfalso; apply HMt; [discriminate|reflexivity]|reflexivity]. }
    eapply ok_bind; [exact K8|exact IN|]. intros r w9 M9 K9 S9 HQ. destruct r; try exact I. cbn in HQ. subst M9.
    destruct (has replay WITH_TIMES); [|reflexivity].
    (* only reading *)
    assert (RD : ok (stat_child dirfd x own) w9 None (still None)).
    { unfold stat_child, on_child. assert (X : forall c, touching c -> legal w9 None c -> ok (do! r <- sys c ;; match r with RStat nd => Ret (Ok nd) | _ => Ret UB end) w9 None (still None)).
      { intros c _ Lc. eapply ok_bind; [exact K9|apply ok_sys; [exact Hw0|exact K9|exact Lc]|]. intros r w10 M10 K10 S10 ->. destruct r as [y| | |]; try reflexivity. destruct y; reflexivity. }
      destruct (x_fd x); [apply X; exact I|]. destruct dirfd; [apply X; exact I|reflexivity]. }
    eapply ok_bind; [exact K9|exact RD|]. intros r w10 M10 K10 S10 ->. destruct r as [nd9| | |]; try exact I.
    destruct (time_granularity_nsec replay); try exact I. destruct (_ =? _); [reflexivity|exact I]. }
  assert (SK : skip replay mode = true -> ok (Ret (Ok tt)) w M stops).
  { intros E. destruct H as [(i & -> & _) | [(i & _ & _ & _ & Hsk & _) | [(-> & _) | (d & t & i & _ & _ & _ & _ & Hsk & _)]]]; try reflexivity; congruence. }
  unfold skip in SK.
  assert (X : forall c1 c2 c3 c4 P, (c1 || c2 || c3 || c4 = true -> ok (Ret (Ok tt)) w M stops) -> (c1 || c2 || c3 || c4 = false -> ok P w M stops) ->
     ok (if c1 then Ret (Ok tt) else if c2 then Ret (Ok tt) else if c3 then Ret (Ok tt) else if c4 then Ret (Ok tt) else P) w M stops).
  { intros [|] [|] [|] [|] P X1 X2; try (apply X1; reflexivity). apply X2. reflexivity. }
  assert (Y : skip replay mode = false -> exists i, handle w M dirfd x name i /\ (M <> None -> x_tmp x <> None)).
  { intros Hns. destruct H as [(i & -> & Hx & Ho) | [(i & -> & Hx & Htmp & _ & nd & E1 & E2) | [(-> & Hx & _ & Hsk) | (d & t & i & -> & Hx & Hdd & Htt & _ & Tg)]]].
    - exists i. split; [|congruence]. split; [left; exact Ho|]. split; [|left; exact Hx]. destruct Ho as (_ & a & ents & E). eexists; split; [exact E|]. discriminate.
    - exists i. split; [|auto]. split; [right; reflexivity|]. split; [|left; exact Hx]. exists nd. rewrite E2. split; [exact E1|discriminate].
    - congruence.
    - exists i. split; [|congruence]. destruct (K_mine _ _ _ _ _ K i eq_refl) as (_ & (nd & E1 & _) & _).
      split; [right; reflexivity|]. split; [exists nd; split; [exact E1|congruence]|]. right. split; [exact Hx|]. split; [reflexivity|].
      exists d. split; [exact Hdd|]. unfold name. rewrite Htt. cbn. split; [apply (Ht t Htt)|exact Tg]. }
  assert (Z : forall P, P = ok (finalize_child cfg replay dirfd x own e) w M stops -> P).
  { intros P ->. unfold finalize_child. fold m. fold mode. fold name.
    assert (W : dirfd <> None \/ x_fd x <> None) by (destruct dirfd; [left; discriminate|right; apply (Hd0 eq_refl)]).
    destruct dirfd as [d|] eqn:Ed; [|destruct (x_fd x) eqn:Ex; [|destruct W; congruence]].
    all: apply X; [exact SK|intros E; destruct (Y E) as (i & Hh & HMt); rewrite ?Ex; apply (Main i); assumption]. }
  exact (Z _ eq_refl).
Qed.
End Programs.
