(** The programs of extraction stay within their bounds. *)
From Coq Require Import Permutation.
From Verif Require Import Base FeatureFlags ArchiveBase Decoder DecoderSpec DecoderProofs5 Fs Extract ExtractSpec ExtractProofs1 ExtractProofs2.
Local Open Scope N_scope.

Section Programs.
Variables (fe : fenv) (cfg : xcfg) (w0 : fs) (b : N).
Hypothesis Hfe : sound_env fe.
Hypothesis Hw0 : sound_fs w0.
Notation undo := (c_undo cfg).
Notation okw := (okw undo w0 b).
Notation ours := (ours w0 b).
Notation odir := (odir w0 b).
Notation new := (new w0).
Notation good := (good undo w0 b).
Notation legal := (legal undo w0 b).

Fixpoint ok {A} (p : prog A) (w : fs) (M : option N) (Q : res A -> fs -> option N -> Prop) : Prop :=
  match p with
  | Ret r => Q r w M
  | Sys c k => forall t x w1, result_of fe t w c = (x, w1) -> exists M1, good w M w1 M1 /\ ok (k x) w1 M1 Q
  end.

Lemma ok_weaken {A} (p : prog A) : forall w M (Q Q' : res A -> fs -> option N -> Prop), ok p w M Q -> (forall r w1 M1, Q r w1 M1 -> Q' r w1 M1) -> ok p w M Q'.
Proof.
  induction p as [r|c k IH]; intros w M Q Q' H HQ; cbn [ok] in *; [auto|]. intros t x w1 Hr. destruct (H _ _ _ Hr) as (M1 & G & H1). eauto.
Qed.
Lemma ok_bind {A B} (p : prog A) (f : res A -> prog B) : forall w M Q Q1, okw w M -> ok p w M Q1 ->
  (forall r w1 M1, okw w1 M1 -> stable w w1 -> Q1 r w1 M1 -> ok (f r) w1 M1 Q) -> ok (pbind p f) w M Q.
Proof.
  induction p as [r|c k IH]; intros w M Q Q1 K H Hf; cbn [pbind ok] in *; [apply Hf; auto using stable_refl|].
  intros t x w1 Hr. destruct (H _ _ _ Hr) as (M1 & G & H1). exists M1. split; [exact G|].
  eapply IH; [apply G|exact H1|]. intros r w2 M2 K2 S2 HQ. apply Hf; auto. eapply stable_trans; [apply G|exact S2].
Qed.
Lemma ok_call {A} c (k : ret -> prog A) w M Q : okw w M -> legal w M c ->
  (forall t x w1, result_of fe t w c = (x, w1) -> okw w1 M -> stable w w1 -> ok (k x) w1 M Q) -> ok (Sys c k) w M Q.
Proof.
  intros K L H. cbn [ok]. intros t x w1 Hr. exists M. pose proof (result_good fe _ _ _ Hw0 _ _ _ _ _ _ K L Hr) as G.
  split; [exact G|]. eapply H; [exact Hr|apply G|apply G].
Qed.
Lemma ok_drop {A} c (k : ret -> prog A) w M Q : okw w M -> legal w None c ->
  (forall t x w1, result_of fe t w c = (x, w1) -> okw w1 None -> stable w w1 -> ok (k x) w1 None Q) -> ok (Sys c k) w M Q.
Proof.
  intros K L H. cbn [ok]. intros t x w1 Hr. exists None. pose proof (result_drop fe _ _ _ Hw0 _ _ _ _ _ _ K L Hr) as G.
  split; [exact G|]. eapply H; [exact Hr|apply G|apply G].
Qed.

(** Nothing but M remains. *)
Definition still (M : option N) {A} : res A -> fs -> option N -> Prop := fun _ _ M1 => M1 = M.

Lemma ok_sys c w M : okw w M -> legal w M c -> ok (sys c) w M (still M).
Proof. intros K L. apply ok_call; auto. intros. cbn. reflexivity. Qed.
Lemma ok_sysnum c w M : okw w M -> legal w M c -> ok (sysnum c) w M (still M).
Proof. intros K L. apply ok_call; auto. intros. cbn. reflexivity. Qed.
Lemma ok_opendir d n w M : okw w M -> ours d -> is_component n ->
  ok (sysnum (COpenDir d n)) w M (fun r w1 M1 => M1 = M /\ forall i, r = Ok i -> odir w1 i).
Proof.
  intros K Hd Hn. apply ok_call; [exact K|exact I|]. intros t x w1 Hr K1 S1. cbn. split; [reflexivity|].
  intros i Hi. destruct x; try discriminate. injection Hi as ->. eapply result_num in Hr; [|reflexivity|discriminate].
  eapply open_dir_result in Hr; eauto. destruct Hr as [-> H]. exact H.
Qed.
Lemma ok_open d n w M : okw w M -> ours d -> is_component n ->
  ok (sysnum (COpen d n)) w M (fun r w1 M1 => M1 = M /\ forall i, r = Ok i -> new i \/ linked w0 b i).
Proof.
  intros K Hd Hn. apply ok_call; [exact K|exact I|]. intros t x w1 Hr K1 S1. cbn. split; [reflexivity|].
  intros i Hi. destruct x; try discriminate. injection Hi as ->. eapply result_num in Hr; [|reflexivity|discriminate].
  eapply open_result in Hr; eauto. destruct Hr as [-> H]. exact H.
Qed.
Lemma ok_readdir i w M : okw w M -> ours i ->
  ok (sys (CReaddir i)) w M (fun r w1 M1 => M1 = M /\ forall l, r = Ok (RNames l) -> forall n k, In (n, k) l -> is_component n).
Proof.
  intros K Hd. apply ok_call; [exact K|exact I|]. intros t x w1 Hr K1 S1. cbn. split; [reflexivity|].
  intros l Hl n k Hin. destruct x; try discriminate. injection Hl as ->.
  destruct (readdir_result fe Hfe _ _ _ _ _ _ Hr eq_refl _ _ Hin) as [j E]. exact (proj1 (K_ents _ _ _ _ _ K _ _ _ Hd E)).
Qed.

(** A continuation after an error is the end. *)
Ltac ends := cbn [ok]; try exact I; try reflexivity.

Lemma ok_unlinkat d n rm w M : okw w M -> ours d -> is_component n -> ok (unlinkat_immutable undo d n rm) w M (still M).
Proof.
  intros K Hd Hn. unfold unlinkat_immutable.
  assert (L : forall w M, legal w M (unlink_call rm d n)) by (intros; unfold unlink_call; destruct rm; cbn; auto).
  eapply ok_bind; [exact K|apply ok_sys; auto|]. intros r w1 M1 K1 S1 ->.
  destruct r as [|[]| |]; try reflexivity.
  destruct (negb undo) eqn:U; [reflexivity|]. apply negb_false_iff in U.
  assert (O : ok (sysnum (if rm then COpenDir d n else COpen d n)) w1 M (fun r w2 M2 => M2 = M /\ forall i, r = Ok i -> new i \/ linked w0 b i \/ ours i)).
  { destruct rm; [eapply ok_weaken; [apply ok_opendir; auto|]|eapply ok_weaken; [apply ok_open; auto|]];
      cbn beta; intros r w2 M2 [-> H]; split; auto; intros i Hi; apply H in Hi; [right; right; apply Hi|tauto]. }
  eapply ok_bind; [exact K1|exact O|]. cbn beta. intros r w2 M2 K2 S2 [-> Hr].
  destruct r as [i|[]| |]; try reflexivity. specialize (Hr i eq_refl).
  assert (O2 : ok (if rm then Ret (Ok RDone) else sys (CStat i)) w2 M (still M)).
  { destruct rm; [reflexivity|]. apply ok_sys; [exact K2|exact I]. }
  eapply ok_bind; [exact K2|exact O2|]. intros r w3 M3 K3 S3 ->. destruct r as [x| | |]; try reflexivity.
  set (o := if rm then None else _). destruct o; [reflexivity|].
  eapply ok_bind; [exact K3|apply ok_sysnum; [exact K3|split; [exact U|exact Hr]]|]. intros r w4 M4 K4 S4 ->. destruct r as [c| | |]; try reflexivity.
  destruct (c =? 0); [reflexivity|]. eapply ok_bind; [exact K4|apply ok_sys; auto|]. intros r w5 M5 K5 S5 ->. destruct r; reflexivity.
Qed.

Lemma ok_noting {A} ig ret (p : prog A) k w M : okw w M -> ok p w M (still M) ->
  (forall w1 ret o, okw w1 M -> ok (k ret o) w1 M (still M)) -> ok (noting ig ret p k) w M (still M).
Proof.
  intros K H Hk. unfold noting. eapply ok_bind; [exact K|exact H|]. intros r w1 M1 K1 S1 ->. destruct r; try reflexivity; apply Hk; assumption.
Qed.

Lemma ok_noting_dir ig ret d n k w M : okw w M -> ours d -> is_component n ->
  (forall w1 ret o, okw w1 M -> (forall i, o = Some i -> ours i) -> ok (k ret o) w1 M (still M)) -> ok (noting ig ret (sysnum (COpenDir d n)) k) w M (still M).
Proof.
  intros K Hd Hn Hk. unfold noting. eapply ok_bind; [exact K|apply ok_opendir; auto|]. cbn beta. intros r w1 M1 K1 S1 [-> Hr].
  destruct r as [i| | |]; try reflexivity; apply Hk; try assumption; [|discriminate]. intros j Hj. injection Hj as <-. apply (Hr i eq_refl).
Qed.

Lemma ok_rm_rf_children depth : forall i w M, okw w M -> ours i -> ok (rm_rf_children undo depth i) w M (still M).
Proof.
  induction depth as [|depth IH]; intros i w M K Hi; [reflexivity|]. cbn [rm_rf_children].
  eapply ok_bind; [exact K|apply ok_sys; [exact K|exact I]|]. intros r w1 M1 K1 S1 ->. destruct r; try reflexivity.
  eapply ok_bind; [exact K1|apply ok_readdir; assumption|]. cbn beta. intros r w2 M2 K2 S2 [-> Hr].
  destruct r as [x|[]| |]; try reflexivity. destruct x as [| | |l| | |]; try reflexivity. specialize (Hr l eq_refl).
  match goal with |- ok (pbind (?E l (Ok tt)) _) _ _ _ => assert (O : forall l ret w, (forall n k, In (n, k) l -> is_component n) -> okw w M -> ok (E l ret) w M (still M)) end.
  { clear - IH Hi Hfe Hw0. induction l as [|[n isd] l IHl]; intros ret w Hl K; [reflexivity|].
    assert (Hl' : forall n k, In (n, k) l -> is_component n) by (intros; eapply Hl; right; eassumption).
    assert (Hn : is_component n) by (eapply Hl; left; reflexivity).
    destruct isd; cbn iota beta.
    - apply ok_noting; [exact K|apply ok_sys; [exact K|exact I]|]. intros w1 ret1 o K1. destruct o as [o'|]; [|apply IHl; auto].
      apply ok_noting_dir; [exact K1|exact Hi|exact Hn|]. intros w2 ret2 o2 K2 Hr.
      destruct o2 as [j|]; [|apply IHl; auto].
      apply ok_noting; [exact K2|apply IH; [exact K2|apply (Hr j eq_refl)]|]. intros w3 ret3 o3 K3.
      apply ok_noting; [exact K3|apply ok_unlinkat; auto|]. intros w4 ret4 o4 K4. apply IHl; auto.
    - apply ok_noting; [exact K|apply ok_unlinkat; auto|]. intros w1 ret1 o K1. apply IHl; auto. }
  eapply ok_bind; [exact K2|apply O; assumption|]. intros r3 w3 M3 K3 S3 ->. destruct r3; reflexivity.
Qed.

Lemma ok_rm_rf_at depth d n w M : okw w M -> ours d -> is_component n -> ok (rm_rf_at undo depth d n) w M (still M).
Proof.
  intros K Hd Hn. unfold rm_rf_at. destruct (beq n [47]); [reflexivity|].
  eapply ok_bind; [exact K|apply ok_opendir; auto|]. cbn beta. intros r w1 M1 K1 S1 [-> Hr].
  assert (O : ok (pbind (unlinkat_immutable undo d n false) (fun r => match r with Err ENOENT => Ret (Ok tt) | r => Ret r end)) w1 M (still M)).
  { eapply ok_bind; [exact K1|apply ok_unlinkat; auto|]. intros r2 w2 M2 K2 S2 ->. destruct r2 as [|[]| |]; reflexivity. }
  destruct r as [i|[]| |]; try reflexivity; try exact O.
  eapply ok_bind; [exact K1|apply ok_rm_rf_children; [exact K1|apply (Hr i eq_refl)]|]. intros r w2 M2 K2 S2 ->.
  assert (O2 : ok (pbind (unlinkat_immutable undo d n true) (fun k => Ret (first_error true r k))) w2 M (still M)).
  { eapply ok_bind; [exact K2|apply ok_unlinkat; auto|]. intros r2 w3 M3 K3 S3 ->. reflexivity. }
  destruct r; try reflexivity; exact O2.
Qed.

(** ** Temporary names *)
Lemma hexchar_ok x : x < 16 -> hexchar x <> 0 /\ hexchar x <> 47.
Proof. unfold hexchar. intros H. destruct (N.ltb_spec x 10); lia. Qed.
Lemma hex_digits_ok n : forall u, ~ In 0 (hex_digits n u) /\ ~ In 47 (hex_digits n u).
Proof.
  induction n as [|n IH]; intros u; cbn [hex_digits In]; [tauto|]. destruct (IH (u / 16)) as [H1 H2].
  destruct (hexchar_ok (u mod 16)) as [H3 H4]; [apply N.mod_lt; discriminate|].
  split; intros [H | H]; auto.
Qed.
Lemma temp_name_ok n u : is_component n -> is_component (temp_name n u) /\ hid (temp_name n u).
Proof.
  intros (H1 & H2 & H3 & _). unfold temp_name. split; [|exists (n ++ hex_digits 16 u); reflexivity].
  destruct (hex_digits_ok 16 u) as [H4 H5].
  unfold is_component. cbn [app]. repeat split; try discriminate.
  - intros [H | [H | H]]; try discriminate. apply in_app_iff in H. tauto.
  - intros [H | [H | H]]; try discriminate. apply in_app_iff in H. tauto.
Qed.
Lemma ok_tempfn n w M : okw w M -> is_component n ->
  ok (tempfn_random n) w M (fun r w1 M1 => M1 = M /\ w1 = w /\ forall t, r = Ok t -> is_component t /\ hid t).
Proof.
  intros K Hn. unfold tempfn_random. destruct (_ || _)%bool; [cbn; split; [reflexivity|split; [reflexivity|discriminate]]|].
  cbn [pbind sysnum ok]. intros t x w1 Hr. assert (w1 = w) by (destruct t; cbn in Hr; injection Hr as _ <-; reflexivity). subst w1.
  exists M. split; [apply good_refl, K|]. destruct x; cbn [ok]; (split; [reflexivity|split; [reflexivity|]]); intros s Hs; try discriminate.
  injection Hs as <-. apply temp_name_ok, Hn.
Qed.

(** ** Making a child *)
Lemma promote w w1 i : okw w None -> good w None w1 None -> new i -> f_next w <= i -> (exists nd, f_ino w1 i = Some nd /\ kind (i_body nd) <> 1) ->
  (forall d n, entry w1 d n i -> hid n) -> good w None w1 (Some i).
Proof.
  intros K [[A1 A2 A3 A4 A5 A6 A7 A8] G2 G3 G4] Hn Hi Hk Hh. constructor.
  - constructor; auto. intros j Hj. injection Hj as <-. auto.
  - intros j nd H1 H2 _. apply G2; auto. discriminate.
  - right. right. exists i. auto.
  - exact G4.
Qed.

Lemma make_ret w d n bd p x w1 : make fe w d n bd p = (x, w1) -> (exists i, x = RNum i) \/ exists e, x = RFail e.
Proof.
  unfold make, on_dir. intros H.
  repeat match type of H with
  | (if ?c then _ else _) = _ => destruct c
  | match ?c with _ => _ end = _ => destruct c
  end; injection H as <- _; eauto.
Qed.
(** Files that aren't directories: the new file becomes the one being made. *)
Definition making (c : call) (d : N) (n : list N) (bd : body) : Prop :=
  (exists p, c = CCreate d n p /\ bd = BReg []) \/ (exists t, c = CSymlink t d n /\ bd = BLnk t) \/ (exists p, c = CMknod d n bd p /\ kind bd <> 1 /\ kind bd <> 2).
Lemma ok_making {A} c d n bd (k : ret -> prog A) w Q : okw w None -> ours d -> is_component n -> hid n -> making c d n bd ->
  (forall w1 i, okw w1 (Some i) -> stable w w1 -> target w1 d n i -> (exists nd, f_ino w1 i = Some nd /\ kind (i_body nd) = kind bd) -> ok (k (RNum i)) w1 (Some i) Q) ->
  (forall e w1, okw w1 None -> stable w w1 -> ok (k (RFail e)) w1 None Q) ->
  ok (Sys c k) w None Q.
Proof.
  intros K Hd Hn Hh Hm H1 H2. cbn [ok]. intros t x w1 Hr.
  assert (L : legal w None c).
  { destruct Hm as [(p & -> & _) | [(s & -> & _) | (p & -> & ? & ?)]]; cbn; auto. }
  pose proof (result_good fe _ _ _ Hw0 _ _ _ _ _ _ K L Hr) as G.
  assert (D : (exists i, x = RNum i) \/ exists e, x = RFail e).
  { destruct t; cbn [result_of] in Hr; [|injection Hr as <- _; right; eauto|];
      destruct Hm as [(p & -> & _) | [(s & -> & _) | (p & -> & _)]]; cbn [fs_do] in Hr; eapply make_ret; exact Hr. }
  destruct D as [[i ->] | [e ->]]; [|exists None; split; [exact G|apply H2; apply G]].
  assert (Hk : kind bd <> 1) by (destruct Hm as [(p & -> & ->) | [(s & -> & ->) | (p & -> & ? & ?)]]; [discriminate|discriminate|assumption]).
  eapply result_num in Hr; [|reflexivity|destruct Hm as [(p & -> & _) | [(s & -> & _) | (p & -> & _)]]; discriminate].
  assert (Mk : exists p, make fe w d n bd p = (RNum i, w1) /\ (kind bd = 2 -> p = 0x1FF)).
  { destruct Hm as [(p & -> & ->) | [(s & -> & ->) | (p & -> & ? & ?)]]; cbn [fs_do] in Hr; eexists; (split; [exact Hr|]); [discriminate|reflexivity|contradiction]. }
  destruct Mk as (p & Mk & Hp).
  destruct (make_good fe _ _ _ Hw0 _ _ _ _ _ _ _ _ K Hd Hn (fun ents E => False_ind _ (Hk (f_equal kind E))) Hp Mk) as [_ F].
  destruct (F i eq_refl) as (-> & F2 & F3 & (nd & F4 & F5) & F6).
  exists (Some (f_next w)). split.
  - apply promote; auto; [lia| |]; [exists nd; split; [exact F4|rewrite F5; exact Hk]|]. intros d' n' E. rewrite (F6 _ _ E). exact Hh.
  - apply H1; [|apply G|exact F3|exists nd; rewrite F5; auto].
    refine (G_ok _ _ _ _ _ _ _ (promote w w1 (f_next w) K G F2 _ _ _)); [lia|exists nd; split; [exact F4|rewrite F5; exact Hk]|].
    intros d' n' E. rewrite (F6 _ _ E). exact Hh.
Qed.

(** What ca_decoder_realize_child leaves. *)
Definition skip (replay mode : N) : bool :=
  (S_ISLNK mode && negb (has replay WITH_SYMLINKS)) || (S_ISFIFO mode && negb (has replay WITH_FIFOS)) || (S_ISSOCK mode && negb (has replay WITH_SOCKETS))
   || ((S_ISBLK mode || S_ISCHR mode) && negb (has replay WITH_DEVICE_NODES)).
Definition made (w : fs) (M : option N) (dirfd : option N) (replay : N) (x : xnode) (mode : N) : Prop :=
  (forall t, x_tmp x = Some t -> is_component t /\ dirfd <> None) /\
  ((exists i, M = None /\ x_fd x = Some i /\ odir w i) \/
   (exists i, M = Some i /\ x_fd x = Some i /\ x_tmp x <> None /\ skip replay mode = false /\ exists nd, f_ino w i = Some nd /\ kind (i_body nd) = 0) \/
   (M = None /\ x_fd x = None /\ x_tmp x = None /\ skip replay mode = true) \/
   (exists d t i, M = Some i /\ x_fd x = None /\ dirfd = Some d /\ x_tmp x = Some t /\ skip replay mode = false /\ target w d t i)).
Lemma skip_types replay mode :
  (S_ISREG mode = true -> skip replay mode = false) /\
  (S_ISLNK mode = true -> skip replay mode = negb (has replay WITH_SYMLINKS)) /\
  (S_ISFIFO mode = true -> skip replay mode = negb (has replay WITH_FIFOS)) /\
  (S_ISSOCK mode = true -> skip replay mode = negb (has replay WITH_SOCKETS)) /\
  ((S_ISBLK mode || S_ISCHR mode)%bool = true -> skip replay mode = negb (has replay WITH_DEVICE_NODES)).
Proof.
  unfold skip, S_ISREG, S_ISLNK, S_ISFIFO, S_ISSOCK, S_ISBLK, S_ISCHR, is_type. set (x := N.land mode S_IFMT). clearbody x.
  repeat split; intros H; try apply orb_true_iff in H; try destruct H as [H | H]; apply N.eqb_eq in H; subst x; cbn; rewrite ?orb_false_r; reflexivity.
Qed.

Definition made_ok (d : N) (replay : N) (e : dentry) : res xnode -> fs -> option N -> Prop :=
  fun r w1 M1 => match r with
                 | Ok x => made w1 M1 (Some d) replay x (m_mode (dt_meta e)) /\
                           (S_ISDIR (m_mode (dt_meta e)) = true -> exists i, x_fd x = Some i /\ odir w1 i /\ M1 = None) /\
                           (S_ISREG (m_mode (dt_meta e)) = true -> exists i, x_fd x = Some i /\ M1 = Some i)
                 | _ => True
                 end.

Lemma made_dir w d i t replay ds mode : odir w i -> (forall s, t = Some s -> is_component s) -> made w None (Some d) replay (mkXnode (Some i) t ds) mode.
Proof. intros H Ht. split; [intros s Hs; split; [auto|discriminate]|]. left. exists i. auto. Qed.

Lemma type_neq m a c : a <> c -> is_type m a = true -> is_type m c = true -> False.
Proof. intros H A C. pose proof (type_excl m a c H A). congruence. Qed.

Lemma ok_realize replay d name e x w : okw w None -> ours d -> is_component name -> entry_shape e -> x_fd x = None -> x_tmp x = None ->
  ok (realize_child replay d name e x) w None (made_ok d replay e).
Proof.
  intros K Hd Hn He Hfd Htmp. unfold realize_child. set (mode := m_mode (dt_meta e)).
  destruct (S_ISDIR mode) eqn:Td.
  { assert (NR : S_ISREG mode = false) by (eapply type_excl; [|exact Td]; discriminate).
    assert (OK : forall w1 i t, odir w1 i -> (forall s, t = Some s -> is_component s) -> made_ok d replay e (Ok (mkXnode (Some i) t (x_dirents x))) w1 None).
    { intros w1 i t Hi Ht. cbn. fold mode. rewrite Td, NR. split; [apply made_dir; auto|]. split; [exists i; auto|discriminate]. }
    assert (MK : forall n w1, okw w1 None -> is_component n -> ok (mkdir_or_mksubvol d n) w1 None (still None)).
    { intros n w1 K1 Hn1. unfold mkdir_or_mksubvol. eapply ok_bind; [exact K1|apply ok_sys; [exact K1|split; assumption]|].
      intros r w2 M2 K2 S2 ->. destruct r; reflexivity. }
    eapply ok_bind; [exact K|apply MK; auto|]. intros r w1 M1 K1 S1 ->.
    assert (O : forall F, F = (fun r =>
        match r with
        | Ok i => Ret (Ok (mkXnode (Some i) (x_tmp x) (x_dirents x)))
        | Err ENOTDIR | Err ELOOP =>
            do! t <- tempfn_random name ;;
            do! _ <- mkdir_or_mksubvol d t ;;
            pbind (sysnum (COpenDir d t)) (fun r =>
            match r with
            | Ok i => Ret (Ok (mkXnode (Some i) (Some t) (x_dirents x)))
            | Err e => pbind (sys (CRmdir d t)) (fun _ => Ret (Err e))
            | Abort => Ret Abort | UB => Ret UB
            end)
        | Err e => Ret (Err e)
        | Abort => Ret Abort | UB => Ret UB
        end) -> ok (pbind (sysnum (COpenDir d name)) F) w1 None (made_ok d replay e)).
    { intros F ->. eapply ok_bind; [exact K1|apply ok_opendir; auto|]. cbn beta. intros r2 w2 M2 K2 S2 [-> Hr2].
      assert (O : ok (do! t <- tempfn_random name ;;
            do! _ <- mkdir_or_mksubvol d t ;;
            pbind (sysnum (COpenDir d t)) (fun r =>
            match r with
            | Ok i => Ret (Ok (mkXnode (Some i) (Some t) (x_dirents x)))
            | Err e => pbind (sys (CRmdir d t)) (fun _ => Ret (Err e))
            | Abort => Ret Abort | UB => Ret UB
            end)) w2 None (made_ok d replay e)).
      { eapply ok_bind; [exact K2|apply ok_tempfn; auto|]. cbn beta. intros r3 w3 M3 K3 S3 (-> & -> & Ht). destruct r3 as [t| | |]; try exact I.
        destruct (Ht t eq_refl) as [Ht1 Ht2].
        eapply ok_bind; [exact K3|apply MK; auto|]. intros r4 w4 M4 K4 S4 ->. destruct r4; try exact I.
        eapply ok_bind; [exact K4|apply ok_opendir; auto|]. cbn beta. intros r5 w5 M5 K5 S5 [-> Hr5]. destruct r5 as [i| | |]; try exact I.
        - apply OK; [apply Hr5; reflexivity|]. intros s Hs. injection Hs as <-. exact Ht1.
        - eapply ok_bind; [exact K5|apply ok_sys; [exact K5|split; assumption]|]. intros r6 w6 M6 K6 S6 ->. exact I. }
      destruct r2 as [i|[]| |]; try exact I; try exact O. cbn [ok]. apply OK; [apply Hr2; reflexivity|]. rewrite Htmp. discriminate. }
    destruct r as [|[]| |]; try exact I; apply O; reflexivity. }
  destruct (S_ISREG mode) eqn:Tr.
  { eapply ok_bind; [exact K|apply ok_tempfn; auto|]. cbn beta. intros r1 w1 M1 K1 S1 (-> & -> & Ht).
    destruct r1 as [t| | |]; try exact I. destruct (Ht t eq_refl) as [Ht1 Ht2]. cbn [sysnum pbind].
    eapply ok_making with (bd := BReg []); [exact K|exact Hd|exact Ht1|exact Ht2|left; eauto| |intros; exact I].
    intros w2 i K2 S2 T2 (nd & E1 & E2). cbn [ok pbind]. cbn. fold mode. rewrite Td, Tr. split; [|split; [discriminate|exists i; auto]].
    split; [cbn; intros s Hs; injection Hs as <-; split; [exact Ht1|discriminate]|].
    right. left. exists i. repeat split; [discriminate|apply (skip_types replay mode), Tr|]. exists nd. auto. }
  pose proof (skip_types replay mode) as (_ & SL & SF & SS & SB).
  assert (OK : forall c bd, (forall t, making (c t) d t bd) -> skip replay mode = false ->
    ok (do! t <- tempfn_random name ;; do! _ <- sys (c t) ;; Ret (Ok (mkXnode None (Some t) (x_dirents x)))) w None (made_ok d replay e)).
  { intros c bd Hm Hsk. eapply ok_bind; [exact K|apply ok_tempfn; auto|]. cbn beta. intros r1 w1 M1 K1 S1 (-> & -> & Ht).
    destruct r1 as [t| | |]; try exact I. destruct (Ht t eq_refl) as [Ht1 Ht2]. cbn [sys pbind].
    eapply ok_making; [exact K|exact Hd|exact Ht1|exact Ht2|apply Hm| |intros; exact I].
    intros w2 i K2 S2 T2 _. cbn [ok pbind]. cbn. fold mode. rewrite Td, Tr. split; [|split; discriminate].
    split; [cbn; intros s Hs; injection Hs as <-; split; [exact Ht1|discriminate]|].
    right. right. right. exists d, t, i. cbn. auto 10. }
  assert (SK : skip replay mode = true -> ok (Ret (Ok x)) w None (made_ok d replay e)).
  { intros Hs. cbn. fold mode. rewrite Td, Tr. split; [|split; discriminate]. split; [rewrite Htmp; discriminate|]. right. right. left. auto. }
  destruct (S_ISLNK mode) eqn:Tl.
  { specialize (SL eq_refl). destruct (negb (has replay WITH_SYMLINKS)) eqn:F; [apply SK, SL|].
    destruct He as [m s V T|m V T|m t V T|m u v V T|m V T]; cbn in mode, Tl; subst mode;
      try (exfalso; eapply type_neq; [|exact T|exact Tl]; discriminate);
      try (exfalso; apply orb_true_iff in T; destruct T as [T | T]; (eapply type_neq; [|exact T|exact Tl]; discriminate)).
    cbn [dt_symlink]. apply OK with (c := fun u => CSymlink t d u) (bd := BLnk t); [|exact SL]. intros u. right. left. exists t. split; reflexivity. }
  destruct (S_ISFIFO mode) eqn:Tf.
  { specialize (SF eq_refl). destruct (negb (has replay WITH_FIFOS)) eqn:F; [apply SK, SF|].
    apply OK with (c := fun u => CMknod d u BFifo mode) (bd := BFifo); [|exact SF]. intros u. right. right. exists mode. split; [reflexivity|split; discriminate]. }
  destruct (S_ISBLK mode || S_ISCHR mode)%bool eqn:Tb.
  { specialize (SB eq_refl). destruct (negb (has replay WITH_DEVICE_NODES)) eqn:F; [apply SK, SB|].
    apply OK with (c := fun u => CMknod d u (body_of e) mode) (bd := body_of e); [|exact SB]. intros u. right. right. exists mode. split; [reflexivity|].
    unfold body_of. destruct (dt_dev e) as [[? ?]|]; [split; discriminate|]. destruct (S_ISFIFO _); split; discriminate. }
  destruct (S_ISSOCK mode) eqn:Ts; [|exact I].
  specialize (SS eq_refl). destruct (negb (has replay WITH_SOCKETS)) eqn:F; [apply SK, SS|].
  apply OK with (c := fun u => CMknod d u BSock mode) (bd := BSock); [|exact SS]. intros u. right. right. exists mode. split; [reflexivity|split; discriminate].
Qed.
End Programs.
