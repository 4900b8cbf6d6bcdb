(** Programs that run to their end: the logic, and the meta data of one file. *)
From Verif Require Import Base FeatureFlags FeatureFlagsProofs ArchiveBase Decoder DecoderSpec DecoderProofs5 RoundTrip1 Encoder EncoderProofs4 Fs Extract ExtractSpec ExtractProofs1 ExtractedSpec.
Local Open Scope N_scope.

Section Logic.
Variable fe : fenv.
Fixpoint wpr {A} (p : prog A) (w : fs) (Q : res A -> fs -> Prop) : Prop :=
  match p with
  | Ret r => Q r w
  | Sys c k => forall t x w1, plain_trouble t -> result_of fe t w c = (x, w1) -> wpr (k x) w1 Q
  end.
Definition okq {A} (Q : A -> fs -> Prop) (r : res A) (w : fs) : Prop := match r with Ok a => Q a w | _ => True end.
Definition wok {A} (p : prog A) (w : fs) (Q : A -> fs -> Prop) : Prop := wpr p w (okq Q).

Lemma works_wpr {A} (p : prog A) w w' r Q : works fe p w w' r -> wpr p w Q -> Q r w'.
Proof. intros H. induction H as [r w|c k t w x w1 w2 r Ht Hr H IH]; cbn; intros HQ; [exact HQ|]. apply IH. eapply HQ; eassumption. Qed.
Lemma wpr_weaken {A} (p : prog A) : forall w (Q Q' : res A -> fs -> Prop), wpr p w Q -> (forall r w1, Q r w1 -> Q' r w1) -> wpr p w Q'.
Proof. induction p as [r|c k IH]; intros w Q Q' H HQ; cbn in *; eauto. Qed.
Lemma wok_weaken {A} (p : prog A) w (Q Q' : A -> fs -> Prop) : wok p w Q -> (forall a w1, Q a w1 -> Q' a w1) -> wok p w Q'.
Proof. intros H HQ. eapply wpr_weaken; [exact H|]. intros [a| | |] w1; cbn; auto. Qed.
Lemma wpr_bind {A B} (p : prog A) (f : res A -> prog B) : forall w Q, wpr p w (fun r w1 => wpr (f r) w1 Q) -> wpr (pbind p f) w Q.
Proof. induction p as [r|c k IH]; intros w Q H; cbn in *; [exact H|]. intros t x w1 Ht Hr. apply IH. eapply H; eassumption. Qed.
Lemma wok_bind {A B} (p : prog A) (f : A -> prog B) w Q : wok p w (fun a w1 => wok (f a) w1 Q) -> wok (do! a <- p ;; f a) w Q.
Proof. intros H. apply wpr_bind. eapply wpr_weaken; [exact H|]. intros [a| | |] w1; cbn; auto. Qed.
Lemma wok_ret {A} (a : A) w (Q : A -> fs -> Prop) : Q a w -> wok (Ret (Ok a)) w Q.
Proof. intros H. exact H. Qed.

Definition no_write (c : call) : Prop := match c with CWrite _ _ => False | _ => True end.
Lemma result_cases t w c x w1 : no_write c -> plain_trouble t -> result_of fe t w c = (x, w1) ->
  fs_do fe w c = (x, w1) \/ (w1 = w /\ exists e, x = RFail e /\ plain_trouble (TFail e)).
Proof.
  intros Hc Ht H. destruct t as [|e|n]; [left; exact H| |].
  - right. assert (E : (RFail e, w) = (x, w1)) by (destruct c; exact H). injection E as <- <-. eauto.
  - left. destruct c; try exact H. contradiction.
Qed.
Definition conv (x : ret) : res ret := match x with RFail e => Err e | x => Ok x end.
Lemma wpr_sys c w (Q : res ret -> fs -> Prop) : no_write c -> (forall e, plain_trouble (TFail e) -> Q (Err e) w) ->
  Q (conv (fst (fs_do fe w c))) (snd (fs_do fe w c)) -> wpr (sys c) w Q.
Proof.
  intros Hc He H t x w1 Ht Hr. destruct (result_cases _ _ _ _ _ Hc Ht Hr) as [E | (-> & e & -> & P)]; [|apply He, P].
  rewrite E in H. destruct x; exact H.
Qed.
Lemma wok_sys c w (Q : ret -> fs -> Prop) : no_write c -> okq Q (conv (fst (fs_do fe w c))) (snd (fs_do fe w c)) -> wok (sys c) w Q.
Proof. intros Hc H. apply wpr_sys; [exact Hc|intros; exact I|exact H]. Qed.
Definition convnum (x : ret) : res N := match x with RFail e => Err e | RNum n => Ok n | _ => UB end.
Lemma wpr_sysnum c w (Q : res N -> fs -> Prop) : no_write c -> (forall e, plain_trouble (TFail e) -> Q (Err e) w) ->
  Q (convnum (fst (fs_do fe w c))) (snd (fs_do fe w c)) -> wpr (sysnum c) w Q.
Proof.
  intros Hc He H t x w1 Ht Hr. destruct (result_cases _ _ _ _ _ Hc Ht Hr) as [E | (-> & e & -> & P)]; [|apply He, P].
  rewrite E in H. destruct x; exact H.
Qed.
Lemma wok_sysnum c w (Q : N -> fs -> Prop) : no_write c -> okq Q (convnum (fst (fs_do fe w c))) (snd (fs_do fe w c)) -> wok (sysnum c) w Q.
Proof. intros Hc H. apply wpr_sysnum; [exact Hc|intros; exact I|exact H]. Qed.

(** ** One inode *)
(** [w1] is [w], but for the inode [i], which is [nd]. *)
Definition now (w : fs) (i : N) (nd : inode) (w1 : fs) : Prop :=
  f_next w1 = f_next w /\ (forall j, j <> i -> f_ino w1 j = f_ino w j) /\ f_ino w1 i = Some nd.
Lemma now_refl w i nd : f_ino w i = Some nd -> now w i nd w.
Proof. intros H. split; [reflexivity|]. split; [reflexivity|exact H]. Qed.
Lemma now_set w i nd nd' w1 : now w i nd w1 -> now w i nd' (set_ino w1 i nd').
Proof.
  intros (A & B & C). split; [exact A|]. split; [|cbn; rewrite N.eqb_refl; reflexivity]. intros j Hj. cbn. destruct (N.eqb_spec j i); [contradiction|]. apply B, Hj.
Qed.

(** The handle of a child leads to the inode [i]. *)
Definition leads_to (w : fs) (dirfd : option N) (x : xnode) (name : list N) (i : N) : Prop :=
  x_fd x = Some i \/
  (x_fd x = None /\ exists d a es, dirfd = Some d /\ d <> i /\ is_component name /\ f_ino w d = Some (mkInode a (BDir es)) /\ get name es = Some i).
Lemma leads_now w i nd w1 dirfd x name : now w i nd w1 -> leads_to w dirfd x name i -> leads_to w1 dirfd x name i.
Proof.
  intros (A & B & C) [H | (H & d & a & es & D1 & D2 & D3 & D4 & D5)]; [left; exact H|]. right. split; [exact H|].
  exists d, a, es. rewrite B by exact D2. auto.
Qed.
Lemma on_name_leads w d a es name i nd k : is_component name -> f_ino w d = Some (mkInode a (BDir es)) -> get name es = Some i -> f_ino w i = Some nd ->
  on_name fe w d name k = k d (mkInode a (BDir es)) es name i nd.
Proof.
  intros Hn Hd Hg Hi. unfold on_name, on_dir, where_. rewrite (proj2 (plain_component name) Hn). unfold dir_at. rewrite Hd. cbn [i_body]. rewrite Hg, Hi. reflexivity.
Qed.

Lemma wok_change w i nd w1 dirfd x name byfd byname f :
  (forall w i, fs_do fe w (byfd i) = change w i f) -> (forall i, no_write (byfd i)) -> (forall d n, no_write (byname d n)) ->
  (forall d a es, is_component name -> f_ino w1 d = Some (mkInode a (BDir es)) -> get name es = Some i -> f_ino w1 i = Some nd -> x_fd x = None ->
     fs_do fe w1 (byname d name) = change w1 i f) ->
  leads_to w dirfd x name i -> now w i nd w1 -> wok (on_child dirfd x name byfd byname) w1 (fun _ w2 => now w i (set_attrs nd (f nd)) w2 /\ a_imm (i_attrs nd) = false).
Proof.
  intros E1 N1 N2 E2 L H. pose proof (leads_now _ _ _ _ _ _ _ H L) as L1.
  assert (C : okq (fun _ w2 => now w i (set_attrs nd (f nd)) w2 /\ a_imm (i_attrs nd) = false) (conv (fst (change w1 i f))) (snd (change w1 i f))).
  { unfold change, on_ino. rewrite (proj2 (proj2 H)). destruct (a_imm (i_attrs nd)) eqn:Im; cbn; [exact I|]. split; [eapply now_set; exact H|reflexivity]. }
  unfold on_child. destruct L1 as [E | (E & d & a & es & -> & D2 & D3 & D4 & D5)]; rewrite E.
  - apply wok_sys; [apply N1|]. rewrite E1. exact C.
  - apply wok_sys; [apply N2|]. rewrite (E2 d a es D3 D4 D5); [exact C|apply H|exact E].
Qed.
Lemma wok_stat w i nd w1 dirfd x name : leads_to w dirfd x name i -> now w i nd w1 -> wok (stat_child dirfd x name) w1 (fun r w2 => r = nd /\ w2 = w1).
Proof.
  intros L H. pose proof (leads_now _ _ _ _ _ _ _ H L) as L1. unfold stat_child, on_child. apply wok_bind. pose proof (proj2 (proj2 H)) as Hi.
  destruct L1 as [-> | (-> & d & a & es & -> & D2 & D3 & D4 & D5)].
  - apply wok_sys; [exact I|]. cbn [fs_do]. rewrite Hi. cbn. auto.
  - apply wok_sys; [exact I|]. cbn [fs_do]. rewrite (on_name_leads _ _ _ _ _ _ _ _ D3 D4 D5 Hi). cbn. auto.
Qed.

Variables (cfg : xcfg) (flags : N).
Variables (w : fs) (i : N) (b : body) (dirfd : option N) (x : xnode) (name : list N).
Hypothesis L : leads_to w dirfd x name i.
Notation at_ a := (now w i (mkInode a b)).

Lemma wok_owner m a w1 : c_shift cfg < two32 -> valid_meta m -> at_ a w1 ->
  wok (restore_owner cfg flags dirfd x name m (mkInode a b)) w1 (fun nd w2 => exists a1, nd = mkInode a1 b /\ at_ a1 w2 /\
    (has flags (bor [WITH_16BIT_UIDS; WITH_32BIT_UIDS; WITH_USER_NAMES]) = true ->
       owner_is flags cfg (c_users cfg) (m_user m) (m_uid m) (a_uid a1) /\ owner_is flags cfg (c_groups cfg) (m_group m) (m_gid m) (a_gid a1)) /\
    (a_perm a = 0x1FF -> a_perm a1 = 0x1FF) /\ incl (a_xattrs a1) (a_xattrs a) /\ a_mtime a1 = a_mtime a).
Proof.
  intros Hs Hm H. unfold restore_owner.
  assert (Hf : has flags (bor [WITH_32BIT_UIDS; WITH_16BIT_UIDS; WITH_USER_NAMES]) = has flags (bor [WITH_16BIT_UIDS; WITH_32BIT_UIDS; WITH_USER_NAMES])).
  { rewrite !has_bor. cbn [existsb]. destruct (has flags WITH_32BIT_UIDS), (has flags WITH_16BIT_UIDS); reflexivity. }
  rewrite Hf. destruct (has flags _) eqn:F; cbn [negb].
  2:{ apply wok_ret. exists a. split; [reflexivity|]. split; [exact H|]. split; [discriminate|]. split; [auto|]. split; [apply incl_refl|reflexivity]. }
  assert (O : forall known nm id got, is_id id -> owner_of cfg flags known nm id = Ok got -> owner_is flags cfg known nm id got).
  { intros known nm id got [Hid _]. unfold owner_of, owner_is. destruct (if has flags WITH_USER_NAMES then nm else None) as [n|].
    - unfold name_to_id. destruct (known n); [|discriminate]. congruence.
    - assert (Hid1 : id mod two32 = id) by (apply N.mod_small; unfold UINT32_MAX, two32 in *; lia). rewrite Hid1. unfold shift_uid.
      destruct (uid_is_valid id); cbn [negb].
      2:{ destruct (uid_is_valid UID_INVALID) eqn:V; [|discriminate]. vm_compute in V. discriminate. }
      set (res := if negb (c_range cfg =? 0) then id mod c_range cfg else id).
      assert (Hres : res < two32 /\ res = (if c_range cfg =? 0 then id else id mod c_range cfg)).
      { subst res. destruct (N.eqb_spec (c_range cfg) 0) as [Z|Z]; cbn [negb]; (split; [|reflexivity]).
        - unfold UINT32_MAX, two32 in *; lia.
        - pose proof (N.mod_le id (c_range cfg) Z). unfold UINT32_MAX, two32 in *; lia. }
      destruct Hres as [Hres <-]. clearbody res.
      destruct (N.ltb_spec ((c_shift cfg + res) mod two32) (c_shift cfg)) as [Q|Q].
      + destruct (uid_is_valid UID_INVALID) eqn:V; [|discriminate]. vm_compute in V. discriminate.
      + intros E. destruct (uid_is_valid _); [|discriminate]. injection E as <-. rewrite (N.add_comm res).
        destruct (N.lt_ge_cases (c_shift cfg + res) two32) as [S|S]; [apply N.mod_small, S|].
        exfalso. assert (E : (c_shift cfg + res) mod two32 = c_shift cfg + res - two32).
        { symmetry. apply (N.mod_unique _ _ 1); unfold two32 in *; lia. }
        unfold two32 in *; lia. }
  destruct (owner_of cfg flags (c_users cfg) (m_user m) (m_uid m)) as [u| | |] eqn:Eu; try exact I.
  destruct (owner_of cfg flags (c_groups cfg) (m_group m) (m_gid m)) as [g| | |] eqn:Eg; try exact I.
  apply O in Eu; [|apply Hm]. apply O in Eg; [|apply Hm]. cbn [i_attrs].
  destruct (N.eqb_spec (a_uid a) u) as [Qu|Qu]; cbn [andb]; [destruct (N.eqb_spec (a_gid a) g) as [Qg|Qg]|].
  - apply wok_ret. exists a. subst u g. split; [reflexivity|]. split; [exact H|]. split; [auto|]. split; [auto|]. split; [apply incl_refl|reflexivity].
  - shelve.
  - shelve.
  Unshelve.
  all: apply wok_bind; eapply wok_weaken; [apply (wok_change w i (mkInode a b) w1 dirfd x name _ _ (chowned u g)); [reflexivity|exact (fun _ => I)|exact (fun _ _ => I)| |exact L|exact H]|].
  1,3: intros d ad es D1 D2 D3 D4 _; cbn [fs_do]; rewrite (on_name_leads _ _ _ _ _ _ _ _ D1 D2 D3 D4); reflexivity.
  all: cbn beta; intros _ w2 [H2 _]; eapply wok_weaken; [eapply wok_stat; [exact L|exact H2]|]; cbn beta; intros nd w3 [-> ->];
    exists (chowned u g (mkInode a b)); split; [reflexivity|]; split; [exact H2|]; unfold chowned; cbn [i_body i_attrs];
    (split; [intros _; destruct b; cbn; auto|]); (split; [intros ->; destruct b; reflexivity|]);
    (split; [destruct b; cbn; try apply incl_refl; intros e He; apply In_del in He; apply He|]); destruct b; reflexivity.
Qed.

Definition same_owner (a a1 : attrs) : Prop := a_uid a1 = a_uid a /\ a_gid a1 = a_gid a.

Lemma wok_perm m a w1 : valid_meta m -> (has flags WITH_PERMISSIONS = true -> has flags WITH_READ_ONLY = false) ->
  (is_lnk (mkInode a b) = true -> a_perm a = 0x1FF /\ S_ISLNK (m_mode m) = true) -> at_ a w1 ->
  wok (restore_perm flags dirfd x name m (mkInode a b)) w1 (fun _ w2 => exists a1, at_ a1 w2 /\
    (has flags WITH_PERMISSIONS = true -> N.land (a_perm a1) 0xFFF = N.land (m_mode m) 0xFFF) /\ same_owner a a1 /\ a_xattrs a1 = a_xattrs a).
Proof.
  intros Hm Hn Hl H. unfold restore_perm. cbn [i_attrs].
  assert (C : forall q, is_lnk (mkInode a b) = false ->
    wok (do! _ <- on_child dirfd x name (fun i0 => CChmod i0 q) (fun d n => CChmodAt d n q) ;; Ret (Ok tt)) w1
      (fun _ w2 => exists a1, at_ a1 w2 /\ a_perm a1 = N.land q 0xFFF /\ same_owner a a1 /\ a_xattrs a1 = a_xattrs a)).
  { intros q Hq. apply wok_bind. eapply wok_weaken; [apply (wok_change w i (mkInode a b) w1 dirfd x name _ _ (chmoded q)); [reflexivity|exact (fun _ => I)|exact (fun _ _ => I)| |exact L|exact H]|].
    - intros d ad es D1 D2 D3 D4 _. cbn [fs_do]. rewrite (on_name_leads _ _ _ _ _ _ _ _ D1 D2 D3 D4). cbn [i_body]. destruct b; try reflexivity. discriminate.
    - cbn beta. intros _ w2 [H2 _]. apply wok_ret. exists (chmoded q (mkInode a b)). split; [exact H2|]. unfold same_owner. cbn. auto. }
  assert (Id : (has flags WITH_PERMISSIONS = true -> N.land (a_perm a) 0xFFF = N.land (m_mode m) 0xFFF) ->
    wok (Ret (Ok tt)) w1 (fun _ w2 => exists a1, at_ a1 w2 /\
    (has flags WITH_PERMISSIONS = true -> N.land (a_perm a1) 0xFFF = N.land (m_mode m) 0xFFF) /\ same_owner a a1 /\ a_xattrs a1 = a_xattrs a)).
  { intros Q. apply wok_ret. exists a. unfold same_owner. auto. }
  assert (Lm : is_lnk (mkInode a b) = true -> a_perm a = 0x1FF /\ m_mode m = S_IFLNK + 0x1FF).
  { intros Q. destruct (Hl Q) as [Q1 Q2]. split; [exact Q1|]. apply (vm_symlink _ Hm Q2). }
  destruct (has flags WITH_READ_ONLY) eqn:Ro.
  - assert (Np : has flags WITH_PERMISSIONS = true -> False) by (intros Q; apply Hn in Q; discriminate).
    destruct (negb (has (a_perm a) 0x100) || _ || _)%bool eqn:E; [|apply Id; intros Q; destruct (Np Q)].
    destruct (is_lnk (mkInode a b)) eqn:El.
    { exfalso. destruct (Lm eq_refl) as [Q1 Q2]. rewrite Q1, Q2 in E. unfold is_lnk in El. unfold is_dir in E. cbn [i_body] in *. destruct b; discriminate. }
    eapply wok_weaken; [apply C; reflexivity|]. cbn beta. intros _ w2 (a1 & A1 & A2 & A3 & A4). exists a1. split; [exact A1|]. split; [intros Q; destruct (Np Q)|auto].
  - destruct (has flags (bor [WITH_PERMISSIONS; WITH_ACL])) eqn:Pe.
    + destruct (N.eqb_spec (N.land (a_perm a) 0xFFF) (N.land (m_mode m) 0xFFF)) as [E|E]; [apply Id; auto|].
      destruct (is_lnk (mkInode a b)) eqn:El; [exfalso; apply E; destruct (Lm eq_refl) as [-> ->]; reflexivity|].
      eapply wok_weaken; [apply C; reflexivity|]. cbn beta. intros _ w2 (a1 & A1 & A2 & A3 & A4). exists a1. split; [exact A1|]. split; [|auto].
      intros _. rewrite A2, <- !N.land_assoc. reflexivity.
    + apply Id. intros Q. rewrite has_bor in Pe. cbn [existsb] in Pe. rewrite Q in Pe. discriminate.
Qed.

Lemma In_del_iff {A} n (l : list (list N * A)) e : In e (del n l) <-> In e l /\ fst e <> n.
Proof.
  split; [apply In_del|]. induction l as [|[m y] l IH]; cbn [del]; [tauto|]. intros [[<- | H] Hn]; destruct (beq m n) eqn:B.
  - apply beq_eq in B. cbn in Hn. congruence.
  - left. reflexivity.
  - auto.
  - right. auto.
Qed.
Lemma In_put_iff {A} n (y : A) l e : In e (put n y l) <-> e = (n, y) \/ (In e l /\ fst e <> n).
Proof. unfold put. cbn [In]. rewrite In_del_iff. split; intros [H | H]; auto. Qed.

(** The xattrs, by fd. *)
Lemma wok_xchange a w1 c f : x_fd x = Some i -> no_write c -> fs_do fe w1 c = change w1 i (xattred f) -> at_ a w1 ->
  wok (sys c) w1 (fun _ w2 => at_ (xattred f (mkInode a b)) w2).
Proof.
  intros _ Nw E H. apply wok_sys; [exact Nw|]. rewrite E. unfold change, on_ino. rewrite (proj2 (proj2 H)). destruct (a_imm _); cbn; [exact I|]. eapply now_set. exact H.
Qed.
Definition only_xattrs (a a1 : attrs) : Prop := a_perm a1 = a_perm a /\ same_owner a a1.
Lemma only_trans a a1 a2 : only_xattrs a a1 -> only_xattrs a1 a2 -> only_xattrs a a2.
Proof. unfold only_xattrs, same_owner. intuition congruence. Qed.

Lemma wok_remove keep l : forall a w1, x_fd x = Some i -> at_ a w1 -> (forall n v, In (n, v) (a_xattrs a) -> xattr_name_store n = true -> in_xattrs n keep = true \/ In n l) ->
  wok (remove_xattrs i keep l) w1 (fun _ w2 => exists a1, at_ a1 w2 /\ only_xattrs a a1 /\
    (forall n v, In (n, v) (a_xattrs a1) -> xattr_name_store n = true -> in_xattrs n keep = true)).
Proof.
  induction l as [|n l IH]; intros a w1 Hx H Hl; cbn [remove_xattrs].
  - apply wok_ret. exists a. split; [exact H|]. split; [split; [reflexivity|split; reflexivity]|]. intros n v A B. destruct (Hl n v A B) as [Q | []]. exact Q.
  - destruct (negb (xattr_name_store n) || in_xattrs n keep)%bool eqn:E.
    + apply IH; auto. intros n' v A B. destruct (Hl n' v A B) as [Q | [Q | Q]]; auto. subst n'. rewrite B in E. auto.
    + apply wok_bind. destruct (get n (a_xattrs a)) as [v|] eqn:G.
      * eapply wok_weaken; [apply (wok_xchange a w1 (CRemoveXattr i n) (del n) Hx I); [|exact H]|].
        -- cbn [fs_do]. unfold on_ino, change, on_ino. rewrite (proj2 (proj2 H)). cbn [i_attrs]. rewrite G. destruct (a_imm a); reflexivity.
        -- cbn beta. intros _ w2 H2. eapply wok_weaken; [apply (IH _ _ Hx H2)|].
           ++ cbn. intros n' v' A B. apply In_del_iff in A. destruct A as [A A']. destruct (Hl n' v' A B) as [Q | [Q | Q]]; auto; cbn in A'; congruence.
           ++ cbn beta. intros _ w3 (a1 & A1 & A2 & A3). exists a1. split; [exact A1|]. split; [|exact A3].
              eapply only_trans; [|exact A2]. split; [reflexivity|split; reflexivity].
      * apply wok_sys; [exact I|]. cbn [fs_do]. unfold on_ino. rewrite (proj2 (proj2 H)). cbn [i_attrs]. rewrite G. destruct (a_imm a); exact I.
Qed.
Lemma wok_set l : forall a w1, x_fd x = Some i -> at_ a w1 -> NoDup (map fst l) ->
  wok (set_xattrs i l) w1 (fun _ w2 => exists a1, at_ a1 w2 /\ only_xattrs a a1 /\
    (forall n v, In (n, v) (a_xattrs a1) <-> In (n, v) l \/ (~ In n (map fst l) /\ In (n, v) (a_xattrs a)))).
Proof.
  induction l as [|[n v] l IH]; intros a w1 Hx H ND; cbn [set_xattrs].
  - apply wok_ret. exists a. split; [exact H|]. split; [split; [reflexivity|split; reflexivity]|]. cbn. intuition.
  - cbn [map fst] in ND. apply NoDup_cons_iff in ND. destruct ND as [ND1 ND2]. apply wok_bind. eapply wok_weaken; [apply (wok_xchange a w1 (CSetXattr i n v) (put n v) Hx I); [reflexivity|exact H]|].
    cbn beta. intros _ w2 H2. eapply wok_weaken; [apply (IH _ _ Hx H2 ND2)|]. cbn beta. intros _ w3 (a1 & A1 & A2 & A3). exists a1. split; [exact A1|].
    split; [eapply only_trans; [|exact A2]; split; [reflexivity|split; reflexivity]|].
    intros n' v'. rewrite A3. cbn [xattred a_xattrs i_attrs]. rewrite In_put_iff. cbn [map fst In].
    split.
    + intros [Q | (Q & [Q' | [Q1 Q2]])]; [auto| |].
      * injection Q' as -> ->. auto.
      * right. split; [|exact Q1]. intros [Q3 | Q3]; [cbn in Q2; congruence|contradiction].
    + intros [[Q | Q] | (Q1 & Q2)]; [|auto|].
      * injection Q as -> ->. auto.
      * right. split; [tauto|]. right. split; [exact Q2|]. cbn. intros Q. apply Q1. auto.
Qed.

Lemma name_store n : storable_name n -> xattr_name_store n = true.
Proof.
  intros [V (s & H)]. unfold xattr_name_store. rewrite (proj1 (RoundTrip1.xattr_name_ok n V)). cbn [negb]. apply orb_true_iff.
  destruct H as [-> | ->]; [left|right]; apply prefixb_iff; exists s; reflexivity.
Qed.
Lemma in_xattrs_iff n l : in_xattrs n l = true <-> In n (map fst l).
Proof.
  unfold in_xattrs. rewrite existsb_exists, in_map_iff. split.
  - intros (e & A & B). apply beq_eq in B. eauto.
  - intros (e & A & B). exists e. split; [exact B|]. rewrite A. apply beq_refl.
Qed.
Lemma xattrs_nodup m : valid_meta m -> NoDup (map fst (m_xattrs m)).
Proof.
  intros Hm. pose proof (vm_xattr_order _ Hm) as H. unfold ascending in H. induction H as [|e l H IH F]; [constructor|]. cbn. constructor; [|exact IH].
  intros Q. apply in_map_iff in Q. destruct Q as (e' & E & Q). rewrite Forall_forall in F. specialize (F _ Q). unfold str_lt in F. rewrite E, strcmp_refl in F. discriminate.
Qed.

Lemma wok_xattrs m a w1 : valid_meta m -> at_ a w1 -> (is_lnk (mkInode a b) = true -> x_fd x = None) -> x_fd x = None \/ x_fd x = Some i ->
  wok (restore_xattrs flags x m (mkInode a b)) w1 (fun _ w2 => exists a1, at_ a1 w2 /\ only_xattrs a a1 /\ (x_fd x = Some i -> xattrs_ok flags m a1)).
Proof.
  intros Hm H Hl Hx. unfold restore_xattrs. destruct Hx as [Hx | Hx]; rewrite Hx.
  { apply wok_ret. exists a. split; [exact H|]. split; [split; [reflexivity|split; reflexivity]|discriminate]. }
  destruct (has flags WITH_XATTRS) eqn:F; cbn [andb].
  2:{ apply wok_ret. exists a. split; [exact H|]. split; [split; [reflexivity|split; reflexivity]|]. intros _ Q. congruence. }
  destruct (is_lnk (mkInode a b)) eqn:El; cbn [negb]; [rewrite Hl in Hx by reflexivity; discriminate|].
  apply wpr_bind. apply wpr_sys; [exact I| |].
  { intros e He. cbn in He. destruct e; try exact I; tauto. }
  cbn [fs_do]. rewrite (proj2 (proj2 H)). cbn [fst snd conv i_attrs].
  apply (wok_bind (remove_xattrs i (m_xattrs m) (map fst (a_xattrs a))) (fun _ => set_xattrs i (m_xattrs m))).
  eapply wok_weaken; [apply (wok_remove _ _ _ _ Hx H)|].
  { intros n v A _. right. apply (in_map fst) in A. exact A. }
  cbn beta. intros _ w2 (a1 & A1 & A2 & A3). eapply wok_weaken; [apply (wok_set _ _ _ Hx A1), xattrs_nodup, Hm|].
  cbn beta. intros _ w3 (a2 & B1 & B2 & B3). exists a2. split; [exact B1|]. split; [eapply only_trans; eassumption|].
  intros _ _ n v Hn. rewrite B3. split; [|auto]. intros [Q | (Q1 & Q2)]; [exact Q|]. exfalso. apply Q1, in_xattrs_iff, (A3 n v Q2), name_store, Hn.
Qed.

Lemma wok_fcaps m a w1 : at_ a w1 -> x_fd x = None \/ x_fd x = Some i -> (x_fd x = Some i -> xattrs_ok flags m a) ->
  wok (restore_fcaps flags x m (mkInode a b)) w1 (fun _ w2 => exists a1, at_ a1 w2 /\ only_xattrs a a1 /\ (x_fd x = Some i -> xattrs_ok flags m a1) /\
    (x_fd x = Some i -> forall data, b = BReg data -> fcaps_ok flags m a1)).
Proof.
  intros H Hx Ha. unfold restore_fcaps.
  assert (Same : only_xattrs a a) by (split; [reflexivity|split; reflexivity]).
  assert (Sc : ~ storable_name SECURITY_CAPABILITY) by (intros [_ (s & [Q | Q])]; discriminate).
  destruct Hx as [Hx | Hx]; rewrite Hx. { apply wok_ret. exists a. split; [exact H|]. split; [exact Same|]. split; discriminate. }
  cbn [i_body]. destruct b as [data| | | | |] eqn:Eb.
  2-6: apply wok_ret; exists a; split; [exact H|]; split; [exact Same|]; split; [auto|discriminate].
  destruct (has flags WITH_FCAPS) eqn:F.
  2:{ apply wok_ret. exists a. split; [exact H|]. split; [exact Same|]. split; [auto|]. intros _ d _ Q. congruence. }
  rewrite <- Eb in *.
  destruct (m_fcaps m) as [v|] eqn:Ev.
  - apply wok_bind. eapply wok_weaken; [apply (wok_xchange a w1 (CSetXattr i SECURITY_CAPABILITY v) (put SECURITY_CAPABILITY v) Hx I); [reflexivity|exact H]|].
    cbn beta. intros _ w2 H2. apply wok_ret. eexists. split; [exact H2|]. split; [split; [reflexivity|split; reflexivity]|]. cbn [xattred a_xattrs i_attrs]. split.
    + intros _ Q n v' Hn. cbn [xattred a_xattrs i_attrs]. rewrite In_put_iff. rewrite <- (Ha Hx Q n v' Hn). split; [|intros A; right; split; [exact A|cbn; congruence]].
      intros [A | [A _]]; [|exact A]. exfalso. apply Sc. congruence.
    + intros _ d _ _ v'. cbn [xattred a_xattrs i_attrs]. rewrite In_put_iff, Ev. split.
      * intros [A | [_ A]]; [congruence|cbn in A; congruence].
      * intros A. left. congruence.
  - apply wpr_bind. apply wpr_sys; [exact I| |].
    { intros e He. cbn in He. destruct e; try exact I; tauto. }
    cbn [fs_do]. rewrite (proj2 (proj2 H)). cbn [i_attrs]. destruct (get SECURITY_CAPABILITY (a_xattrs a)) as [v|] eqn:G; cbn [fst snd conv].
    + apply wok_bind. eapply wok_weaken; [apply (wok_xchange a w1 (CRemoveXattr i SECURITY_CAPABILITY) (del SECURITY_CAPABILITY) Hx I); [|exact H]|].
      { cbn [fs_do]. unfold on_ino, change, on_ino. rewrite (proj2 (proj2 H)). cbn [i_attrs]. rewrite G. destruct (a_imm a); reflexivity. }
      cbn beta. intros _ w2 H2. apply wok_ret. eexists. split; [exact H2|]. split; [split; [reflexivity|split; reflexivity]|]. cbn [xattred a_xattrs i_attrs]. split.
      * intros _ Q n v' Hn. cbn [xattred a_xattrs i_attrs]. rewrite In_del_iff. rewrite <- (Ha Hx Q n v' Hn). split; [tauto|]. intros A. split; [exact A|]. cbn. congruence.
      * intros _ d _ _ v'. cbn [xattred a_xattrs i_attrs]. rewrite In_del_iff, Ev. cbn. split; [tauto|discriminate].
    + apply wok_ret. exists a. split; [exact H|]. split; [exact Same|]. split; [auto|]. intros _ d _ _ v'. rewrite Ev. split; [|discriminate].
      intros Q. exfalso. clear -G Q. induction (a_xattrs a) as [|[n y] l IH]; [destruct Q|]. cbn [get] in G. destruct (beq n SECURITY_CAPABILITY) eqn:B; [discriminate|].
      destruct Q as [Q | Q]; [|auto]. injection Q as -> ->. rewrite beq_refl in B. discriminate.
Qed.

Lemma wok_times m a w1 : at_ a w1 ->
  wok (if has flags WITH_TIMES then do! _ <- on_child dirfd x name (fun i0 => CUtime i0 (m_mtime m)) (fun d n => CUtimeAt d n (m_mtime m)) ;; Ret (Ok tt) else Ret (Ok tt)) w1
    (fun _ w2 => exists a1, at_ a1 w2 /\ only_xattrs a a1 /\ a_xattrs a1 = a_xattrs a /\
       (has flags (bor [WITH_2SEC_TIME; WITH_SEC_TIME; WITH_USEC_TIME; WITH_NSEC_TIME]) = true -> a_mtime a1 = m_mtime m)).
Proof.
  intros H. assert (E : has flags WITH_TIMES = has flags (bor [WITH_2SEC_TIME; WITH_SEC_TIME; WITH_USEC_TIME; WITH_NSEC_TIME])).
  { unfold WITH_TIMES. rewrite !has_bor. cbn [existsb]. destruct (has flags WITH_2SEC_TIME), (has flags WITH_SEC_TIME), (has flags WITH_USEC_TIME), (has flags WITH_NSEC_TIME); reflexivity. }
  rewrite E. destruct (has flags _).
  2:{ apply wok_ret. exists a. split; [exact H|]. split; [split; [reflexivity|split; reflexivity]|]. split; [reflexivity|discriminate]. }
  apply wok_bind. eapply wok_weaken; [apply (wok_change w i (mkInode a b) w1 dirfd x name _ _ (timed (m_mtime m))); [reflexivity|exact (fun _ => I)|exact (fun _ _ => I)| |exact L|exact H]|].
  - intros d ad es D1 D2 D3 D4 _. cbn [fs_do]. rewrite (on_name_leads _ _ _ _ _ _ _ _ D1 D2 D3 D4). reflexivity.
  - cbn beta. intros _ w2 [H2 _]. apply wok_ret. eexists. split; [exact H2|]. split; [split; [reflexivity|split; reflexivity]|]. split; reflexivity.
Qed.
End Logic.
