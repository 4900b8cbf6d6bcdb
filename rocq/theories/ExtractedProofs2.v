(** Making, writing, finishing one file. *)
From Coq Require Import Permutation Sorted.
From Verif Require Import Base FeatureFlags FeatureFlagsProofs ArchiveBase Decoder DecoderSpec DecoderProofs5 Encoder Fs Extract ExtractSpec ExtractProofs1 ExtractProofs2 ExtractProofs3 ExtractedSpec
  ExtractedProofs1.
Local Open Scope N_scope.

(** ** bsearch *)
Lemma bsearch_finds fuel : forall key l lo hi, StronglySorted str_lt l -> (hi <= length l)%nat -> (hi - lo < fuel)%nat ->
  (exists k, (lo <= k < hi)%nat /\ nth k l [] = key) -> bsearch fuel key l lo hi = true.
Proof.
  induction fuel as [|fuel IH]; intros key l lo hi Hs Hh Hf (k & Hk & Ek); [lia|]. cbn [bsearch].
  destruct (Nat.leb_spec hi lo) as [Q|Q]; [lia|].
  set (idx := Nat.div2 (lo + hi)). assert (Hi : (lo <= idx < hi)%nat).
  { subst idx. rewrite Nat.div2_div. split; [apply Nat.div_le_lower_bound; lia|apply Nat.div_lt_upper_bound; lia]. }
  clearbody idx.
  assert (Lt : forall a c, (a < c < length l)%nat -> strcmp (nth a l []) (nth c l []) = Lt).
  { clear -Hs. induction Hs as [|x l Hs IH F]; intros a c H; cbn in H; [lia|]. destruct c as [|c]; [lia|]. destruct a as [|a].
    - cbn. rewrite Forall_forall in F. apply F, nth_In. lia.
    - cbn. apply IH. lia. }
  destruct (strcmp key (nth idx l [])) eqn:C; [reflexivity| |].
  - apply IH; auto; try lia. exists k. split; [|exact Ek]. split; [lia|].
    destruct (Nat.lt_ge_cases k idx) as [R|R]; [exact R|]. exfalso. destruct (Nat.eq_dec k idx) as [-> | D].
    + rewrite Ek, strcmp_refl in C. discriminate.
    + specialize (Lt idx k ltac:(lia)). rewrite Ek in Lt. rewrite strcmp_antisym, C in Lt. discriminate.
  - apply IH; auto; try lia. exists k. split; [|exact Ek]. split; [|lia].
    destruct (Nat.lt_ge_cases idx k) as [R|R]; [lia|]. exfalso. destruct (Nat.eq_dec k idx) as [-> | D].
    + rewrite Ek, strcmp_refl in C. discriminate.
    + specialize (Lt k idx ltac:(lia)). rewrite Ek in Lt. congruence.
Qed.
Lemma safe_bsearch_finds key l : StronglySorted str_lt l -> In key l -> safe_bsearch key l = true.
Proof.
  intros Hs Hin. apply bsearch_finds; auto; try lia. apply In_nth with (d := []) in Hin. destruct Hin as (k & A & B). exists k. split; [lia|exact B].
Qed.

Lemma get_none {A} n (l : list (list N * A)) : get n l = None <-> ~ In n (map fst l).
Proof.
  induction l as [|[m y] l IH]; cbn [get map fst In]; [tauto|]. destruct (beq m n) eqn:B.
  - apply beq_eq in B. subst m. split; [discriminate|]. intros H. exfalso. apply H. auto.
  - apply beq_neq in B. rewrite IH. intuition.
Qed.
Lemma get_some {A} n (l : list (list N * A)) y : NoDup (map fst l) -> In (n, y) l -> get n l = Some y.
Proof.
  induction l as [|[m z] l IH]; cbn [get map fst]; intros ND H; [destruct H|]. apply NoDup_cons_iff in ND. destruct ND as [N1 N2]. destruct H as [H | H].
  - injection H as -> ->. rewrite beq_refl. reflexivity.
  - destruct (beq m n) eqn:B; [|auto]. apply beq_eq in B. subst m. exfalso. apply N1. apply (in_map fst) in H. exact H.
Qed.
Lemma del_nodup {A} n (l : list (list N * A)) : NoDup (map fst l) -> NoDup (map fst (del n l)).
Proof.
  induction l as [|[m y] l IH]; cbn [del map fst]; intros ND; [constructor|]. apply NoDup_cons_iff in ND. destruct ND as [N1 N2]. destruct (beq m n); [auto|].
  cbn [map fst]. constructor; [|auto]. intros Q. apply N1. apply in_map_iff in Q. destruct Q as (e & <- & Q). apply In_del in Q. apply in_map, Q.
Qed.
Lemma put_nodup {A} n (y : A) (l : list (list N * A)) : NoDup (map fst l) -> NoDup (map fst (put n y l)).
Proof.
  intros H. cbn. constructor; [|apply del_nodup, H]. intros Q. apply in_map_iff in Q. destruct Q as (e & E & Q). apply In_del in Q. tauto.
Qed.

Section Child.
Variables (fe : fenv) (cfg : xcfg) (flags : N).
Hypothesis Hfe : sound_env fe.
Notation wok := (wok fe).
Notation wpr := (wpr fe).

(** ** Writing *)
Lemma wok_write fuel : forall i p w a data, f_ino w i = Some (mkInode a (BReg data)) ->
  wok (write_all fuel i p) w (fun _ w1 => exists a1, now w i (mkInode a1 (BReg (data ++ p))) w1).
Proof.
  induction fuel as [|fuel IH]; intros i p w a data H; destruct p as [|c p]; cbn [write_all]; try exact I.
  1,2: exists a; rewrite app_nil_r; apply now_refl, H.
  apply wok_bind. unfold ExtractedProofs1.wok, sysnum. cbn [ExtractedProofs1.wpr]. intros t r w1 Ht Hr.
  set (q := c :: p) in *. clearbody q. 
  assert (W : forall q', okq (fun n w1 => wok (if len q <? n then Ret Abort else write_all fuel i (dropN n q)) w1 (fun _ w2 => exists a1, now w i (mkInode a1 (BReg (data ++ q))) w2))
     (convnum (fst (fs_do fe w (CWrite i (takeN q' q))))) (snd (fs_do fe w (CWrite i (takeN q' q))))).
  { intros q'. cbn [fs_do]. unfold on_ino. rewrite H. cbn [i_attrs i_body]. destruct (a_imm a); [exact I|]. cbn [fst snd convnum okq].
    set (m := takeN q' q). assert (Em : m = takeN (len m) q).
    { subst m. rewrite len_takeN. destruct (N.le_ge_cases q' (len q)) as [Q|Q]; [rewrite N.min_l by exact Q; reflexivity|].
      rewrite N.min_r by exact Q. rewrite (takeN_all (len q)) by lia. apply takeN_all. exact Q. }
    destruct (N.ltb_spec (len q) (len m)) as [Q|Q]; [exact I|].
    set (w2 := set_ino w i _). set (ai := with_mtime a (fe_now fe w)) in *.
    assert (H2 : now w i (mkInode ai (BReg (data ++ m))) w2) by (apply (now_set w i (mkInode a (BReg data))), now_refl, H).
    eapply wok_weaken; [apply (IH i (dropN (len m) q) w2 ai (data ++ m)), H2|]. cbn beta. intros _ w3 (a3 & A & B & C). exists a3.
    split; [rewrite A; apply H2|]. split; [intros j Hj; rewrite B by exact Hj; apply H2, Hj|]. rewrite C. do 3 f_equal. rewrite <- app_assoc. f_equal. rewrite Em at 1. apply takeN_dropN. }
  assert (W0 := W (len q)). rewrite takeN_all in W0 by lia.
  destruct t as [|e|n]; cbn [result_of] in Hr.
  - rewrite Hr in W0. cbn [fst snd] in W0. destruct r; exact W0.
  - injection Hr as <- <-. exact I.
  - specialize (W (N.max 1 n)). rewrite Hr in W. cbn [fst snd] in W. destruct r; exact W.
Qed.

(** ** Making *)
Definition grown (w : fs) (d : N) (es : list (list N * N)) (n : list N) (a : attrs) (b : body) (w1 : fs) : Prop :=
  f_next w1 = f_next w + 1 /\ f_ino w1 (f_next w) = Some (mkInode a b) /\ (exists ad, f_ino w1 d = Some (mkInode ad (BDir (put n (f_next w) es)))) /\
  forall j, j <> d -> j <> f_next w -> f_ino w1 j = f_ino w j.
Lemma make_grown w d ad es n b perm : is_component n -> f_ino w d = Some (mkInode ad (BDir es)) -> d < f_next w ->
  okq (fun i w1 => i = f_next w /\ get n es = None /\ exists a, a_perm a = perm /\ grown w d es n a b w1) (convnum (fst (make fe w d n b perm))) (snd (make fe w d n b perm)).
Proof.
  intros Hn Hd Hl. unfold make, on_dir, where_. rewrite (proj2 (plain_component n) Hn). unfold dir_at. rewrite Hd. cbn [i_body].
  destruct (NAME_MAX <? len n); [exact I|]. destruct (get n es) eqn:G; [exact I|]. cbn [i_attrs]. destruct (a_imm ad); [exact I|]. cbn [fst snd convnum okq].
  split; [reflexivity|]. split; [reflexivity|]. eexists. split; [|split; [reflexivity|]]; [shelve|].
  unfold set_ents, set_ino, add_ino. cbn [f_ino f_next]. split; [destruct (N.eqb_spec (f_next w) d); [lia|]; rewrite N.eqb_refl; reflexivity|].
  split; [eexists; rewrite N.eqb_refl; reflexivity|]. intros j H1 H2. destruct (N.eqb_spec j d); [contradiction|]. destruct (N.eqb_spec j (f_next w)); [contradiction|]. reflexivity.
  Unshelve. reflexivity.
Qed.
Lemma conv_num (Q : ret -> fs -> Prop) P (r : ret) (w : fs) : okq P (convnum r) w -> (forall n, r = RNum n -> P n w -> Q r w) -> (forall e, r <> RFail e -> exists n, r = RNum n) -> okq Q (conv r) w.
Proof. intros H HQ HR. destruct r; cbn in *; auto; try (destruct (HR EIO) as [? ?]; discriminate). eapply HQ; [reflexivity|exact H]. Qed.

Lemma temp_ne name u : temp_name name u <> name.
Proof.
  intros E. assert (L : forall n u, length (hex_digits n u) = n) by (induction n; intros; cbn [hex_digits length]; auto).
  apply (f_equal (@length N)) in E. unfold temp_name in E. rewrite !app_length, L in E. cbn [length] in E. lia.
Qed.
Lemma wok_temp name w : is_component name -> wok (tempfn_random name) w (fun t w1 => w1 = w /\ is_component t /\ t <> name).
Proof.
  intros Hn. unfold tempfn_random. destruct (_ || _)%bool; [exact I|]. apply wok_bind. apply wok_sysnum; [exact I|]. cbn [fs_do fst snd convnum okq]. apply wok_ret. split; [reflexivity|].
  split; [apply temp_name_ok, Hn|apply temp_ne].
Qed.

(** ** Installing *)
Lemma wok_install w d ad es tmp own i nd : is_component tmp -> is_component own -> tmp <> own -> f_ino w d = Some (mkInode ad (BDir es)) -> get tmp es = Some i ->
  f_ino w i = Some nd -> get own es = None ->
  wok (install_file cfg d tmp own) w (fun _ w1 => exists ad1, now w d (mkInode ad1 (BDir (put own i (del tmp es)))) w1).
Proof.
  intros Ht Ho Hne Hd Hg Hi Hn. unfold install_file. apply wok_bind.
  set (Q := fun (r : res unit) w1 => match r with Ok _ => exists ad1, now w d (mkInode ad1 (BDir (put own i (del tmp es)))) w1 | Err e => e <> ENOTDIR /\ e <> EISDIR | _ => True end).
  apply wok_weaken with (Q := Q).
  2:{ intros r w1 HQ. destruct r as [u|e| |]; cbn in HQ; [exact HQ| |exact I|exact I]. destruct HQ as [Q1 Q2]. destruct e; try exact I; congruence. }
  unfold retrying. apply wpr_bind. apply wpr_sys; [exact I| |].
  { intros e He. cbn in He. destruct e; cbn; try (split; discriminate); exfalso; tauto. }
  cbn [fs_do]. rewrite (on_name_leads fe _ _ _ _ _ _ _ _ Ht Hd Hg Hi). unfold where_. rewrite (proj2 (plain_component own) Ho), N.eqb_refl. cbn [negb]. unfold rename_to. cbn [i_attrs].
  destruct (a_imm ad || a_imm (i_attrs nd))%bool.
  - cbn [fst snd conv]. destruct (c_undo cfg); cbn [negb]; [|cbn; split; discriminate]. apply wok_bind. unfold drop_immutable. apply wpr_bind. apply wpr_sysnum; [exact I| |].
    + intros e He. cbn in He. destruct e; try exact I; tauto.
    + cbn [fs_do]. unfold on_name, on_dir, where_. rewrite (proj2 (plain_component own) Ho). unfold dir_at. rewrite Hd. cbn [i_body]. rewrite Hn. exact I.
  - destruct (NAME_MAX <? len own); [cbn; split; discriminate|]. rewrite Hn. cbn. eexists. apply (now_set w d (mkInode ad (BDir es))), now_refl, Hd.
Qed.

(** ** Nothing to delete *)
Lemma wok_delete_none i dirents l : forall w, (forall e, In e l -> safe_bsearch (fst e) dirents = true) -> wok (delete_others cfg i dirents l) w (fun _ w1 => w1 = w).
Proof.
  induction l as [|[n q] l IH]; intros w H; cbn [delete_others]; [reflexivity|]. pose proof (H (n, q) (or_introl eq_refl)) as H1. cbn [fst] in H1. rewrite H1. apply IH. intros e He. apply H. right. exact He.
Qed.
Lemma wok_node_delete w i a es dirents : f_ino w i = Some (mkInode a (BDir es)) ->
  (c_delete cfg = true -> StronglySorted str_lt dirents /\ incl (map fst es) dirents) -> wok (node_delete cfg i dirents) w (fun _ w1 => w1 = w).
Proof.
  intros Hi H. unfold node_delete. destruct (c_delete cfg); cbn [negb]; [|reflexivity]. destruct (H eq_refl) as [S Inc]. apply wok_bind. apply wok_sys; [exact I|].
  cbn [fs_do]. unfold dir_at. rewrite Hi. cbn [i_body fst snd conv okq]. apply wok_delete_none. intros e He. apply safe_bsearch_finds; [exact S|]. apply Inc.
  apply (Permutation_in _ (Hfe _)) in He. apply in_map_iff in He. destruct He as (e' & <- & He). cbn. apply in_map, He.
Qed.

(** ** Realizing *)
(** The new file [f_next w] in the directory [d], under the name [tn]. *)
Definition new_child (w : fs) (d : N) (es : list (list N * N)) (tn : list N) (bd : body) (w1 : fs) : Prop :=
  is_component tn /\ get tn es = None /\ exists a, (forall t, bd = BLnk t -> a_perm a = 0x1FF) /\ grown w d es tn a bd w1.
Definition kind_body (e : dentry) (bd : body) : Prop :=
  let mode := m_mode (dt_meta e) in
  match bd with
  | BReg _ => S_ISREG mode = true
  | BDir _ => S_ISDIR mode = true
  | BLnk t => S_ISLNK mode = true /\ dt_symlink e = Some t
  | BDev q x y => (S_ISBLK mode || S_ISCHR mode)%bool = true /\ dt_dev e = Some (x, y) /\ q = S_ISBLK mode
  | BFifo => S_ISFIFO mode = true
  | BSock => S_ISSOCK mode = true
  end.
Lemma wok_making c w d ad es n bd p : is_component n -> f_ino w d = Some (mkInode ad (BDir es)) -> d < f_next w -> no_write c -> fs_do fe w c = make fe w d n bd p ->
  (forall t, bd = BLnk t -> p = 0x1FF) ->
  wok (sys c) w (fun _ w1 => new_child w d es n bd w1) /\ wok (sysnum c) w (fun i w1 => i = f_next w /\ new_child w d es n bd w1).
Proof.
  intros Hn Hd Hl Hc E Hp. pose proof (make_grown w d ad es n bd p Hn Hd Hl) as G. split.
  - apply wok_sys; [exact Hc|]. rewrite E. destruct (make_ret fe w d n bd p _ _ (surjective_pairing _)) as [[i Ei] | [e Ee]].
    + rewrite Ei in *. cbn [convnum okq conv] in *. destruct G as (_ & G1 & a & Ga & G2). split; [exact Hn|]. split; [exact G1|]. exists a. split; [intros t Ht; rewrite Ga; eauto|exact G2].
    + rewrite Ee. exact I.
  - apply wok_sysnum; [exact Hc|]. rewrite E. destruct (make_ret fe w d n bd p _ _ (surjective_pairing _)) as [[i Ei] | [e Ee]].
    + rewrite Ei in *. cbn [convnum okq conv] in *. destruct G as (-> & G1 & a & Ga & G2). split; [reflexivity|]. split; [exact Hn|]. split; [exact G1|]. exists a. split; [intros t Ht; rewrite Ga; eauto|exact G2].
    + rewrite Ee. exact I.
Qed.

Definition realized (w : fs) (d : N) (es : list (list N * N)) (name : list N) (e : dentry) (c : xnode) (w1 : fs) : Prop :=
  let mode := m_mode (dt_meta e) in
  (skip flags mode = true /\ c = xnode0 /\ w1 = w) \/
  (skip flags mode = false /\ exists tn bd, new_child w d es tn bd w1 /\ kind_body e bd /\
     ((S_ISDIR mode = true /\ c = mkXnode (Some (f_next w)) None [] /\ tn = name /\ bd = BDir []) \/
      (S_ISREG mode = true /\ c = mkXnode (Some (f_next w)) (Some tn) [] /\ tn <> name /\ bd = BReg []) \/
      (S_ISDIR mode = false /\ S_ISREG mode = false /\ c = mkXnode None (Some tn) [] /\ tn <> name))).

Lemma skip_plain mode : (S_ISDIR mode || S_ISREG mode)%bool = true -> skip flags mode = false.
Proof.
  intros H. unfold skip. assert (E : forall t, t <> S_IFDIR -> t <> S_IFREG -> is_type mode t = false).
  { intros t H1 H2. apply orb_true_iff in H. destruct H as [H | H]; [apply (type_excl mode S_IFDIR)|apply (type_excl mode S_IFREG)]; auto. }
  unfold S_ISLNK, S_ISFIFO, S_ISSOCK, S_ISBLK, S_ISCHR. rewrite !E by discriminate. reflexivity.
Qed.
Lemma wok_realize w d ad es name e : is_component name -> f_ino w d = Some (mkInode ad (BDir es)) -> d < f_next w -> get name es = None -> entry_shape e ->
  wok (realize_child flags d name e xnode0) w (realized w d es name e).
Proof.
  intros Hn Hd Hl Hg He. unfold realize_child. set (mode := m_mode (dt_meta e)).
  destruct (S_ISDIR mode) eqn:Td.
  - apply wpr_bind. unfold mkdir_or_mksubvol. 
    apply wpr_weaken with (Q := fun r w1 => match r with Ok _ => new_child w d es name (BDir []) w1 | Err x => x <> EEXIST | _ => True end).
    + apply wpr_bind. destruct (wok_making (CMkdir d name 0x1C0) w d ad es name (BDir []) (umasked fe 0x1C0) Hn Hd Hl I eq_refl ltac:(discriminate)) as [W _].
      intros t x w1 Ht Hr. specialize (W t x w1 Ht Hr). destruct (result_cases fe t w (CMkdir d name 0x1C0) x w1 I Ht Hr) as [E | (-> & x' & -> & P)].
      * destruct x; cbn in W |- *; auto. intros ->. cbn [fs_do] in E. unfold make, on_dir, where_ in E. rewrite (proj2 (plain_component name) Hn) in E. unfold dir_at in E. rewrite Hd in E. cbn [i_body] in E.
        rewrite Hg in E. destruct (NAME_MAX <? len name); [discriminate|]. destruct (a_imm _); discriminate.
      * cbn in *. intros ->. tauto.
    + intros [u|x| |] w1 H; [|destruct x; try exact I; congruence|exact I|exact I]. destruct H as (_ & G1 & a & Ga & G2 & G3 & (ad1 & G4) & G5).
      apply wpr_bind. apply wpr_sysnum; [exact I| |].
      * intros x Hx. cbn in Hx. destruct x; try exact I; tauto.
      * cbn [fs_do]. assert (Q : get name (put name (f_next w) es) = Some (f_next w)) by (cbn [put get]; rewrite beq_refl; reflexivity).
        rewrite (on_name_leads fe _ _ _ _ _ _ _ _ Hn G4 Q G3). cbn [i_body fst snd convnum okq wpr]. right. split; [apply skip_plain; fold mode; rewrite Td; reflexivity|].
        exists name, (BDir []). split; [|split; [exact Td|left; auto]]. split; [exact Hn|]. split; [exact G1|]. exists a. split; [exact Ga|]. split; [exact G2|]. split; [exact G3|]. split; [eauto|exact G5].
  - destruct (S_ISREG mode) eqn:Tr.
    { apply wok_bind. eapply wok_weaken; [apply wok_temp, Hn|]. cbn beta. intros t w1 (-> & Ht1 & Ht2). apply wok_bind.
      eapply wok_weaken; [apply (proj2 (wok_making (CCreate d t (N.lor 0x180 mode)) w d ad es t (BReg []) _ Ht1 Hd Hl I eq_refl ltac:(discriminate)))|].
      cbn beta. intros i w1 (-> & G). apply wok_ret. right. split; [apply skip_plain; fold mode; rewrite Td, Tr; reflexivity|]. exists t, (BReg []). split; [exact G|]. split; [exact Tr|].
      right. left. auto. }
    assert (Sp : forall c bd p, (forall t, no_write (c t)) -> (forall t, fs_do fe w (c t) = make fe w d t bd p) -> (forall t, bd = BLnk t -> p = 0x1FF) -> skip flags mode = false -> kind_body e bd ->
      wok (do! t <- tempfn_random name ;; do! _ <- sys (c t) ;; Ret (Ok (mkXnode None (Some t) (x_dirents xnode0)))) w (realized w d es name e)).
    { intros c bd p C1 C2 C3 Sk K. apply wok_bind. eapply wok_weaken; [apply wok_temp, Hn|]. cbn beta. intros t w1 (-> & Ht1 & Ht2). apply wok_bind.
      eapply wok_weaken; [apply (proj1 (wok_making (c t) w d ad es t bd p Ht1 Hd Hl (C1 t) (C2 t) C3))|].
      cbn beta. intros _ w1 G. apply wok_ret. right. split; [exact Sk|]. exists t, bd. split; [exact G|]. split; [exact K|]. right. right. auto. }
    assert (Sk : skip flags mode = true -> wok (Ret (Ok xnode0)) w (realized w d es name e)) by (intros Q; apply wok_ret; left; auto).
    assert (Ty : forall t t', t <> t' -> is_type mode t = true -> is_type mode t' = false) by (intros t t' Q1 Q2; exact (type_excl mode t t' Q1 Q2)).
    destruct (S_ISLNK mode) eqn:Tl.
    { assert (S1 : skip flags mode = negb (has flags WITH_SYMLINKS)).
      { unfold skip. rewrite Tl. unfold S_ISFIFO, S_ISSOCK, S_ISBLK, S_ISCHR.
        rewrite (Ty S_IFLNK S_IFIFO ltac:(discriminate) Tl), (Ty S_IFLNK S_IFSOCK ltac:(discriminate) Tl), (Ty S_IFLNK S_IFBLK ltac:(discriminate) Tl), (Ty S_IFLNK S_IFCHR ltac:(discriminate) Tl).
        cbn [andb orb]. rewrite ?orb_false_r. reflexivity. }
      destruct (has flags WITH_SYMLINKS) eqn:F; cbn [negb] in *; [|apply Sk, S1].
      destruct (dt_symlink e) as [target|] eqn:Es.
      - apply (Sp (fun t => CSymlink target d t) (BLnk target) 0x1FF); auto; [exact (fun _ => I)|]. split; [exact Tl|exact Es].
      - apply wok_bind. eapply wok_weaken; [apply wok_temp, Hn|]. intros; exact I. }
    destruct (S_ISFIFO mode) eqn:Tf.
    { assert (S1 : skip flags mode = negb (has flags WITH_FIFOS)).
      { unfold skip. rewrite Tl, Tf. unfold S_ISSOCK, S_ISBLK, S_ISCHR.
        rewrite (Ty S_IFIFO S_IFSOCK ltac:(discriminate) Tf), (Ty S_IFIFO S_IFBLK ltac:(discriminate) Tf), (Ty S_IFIFO S_IFCHR ltac:(discriminate) Tf).
        cbn [andb orb]. rewrite ?orb_false_r. reflexivity. }
      destruct (has flags WITH_FIFOS) eqn:F; cbn [negb] in *; [|apply Sk, S1].
      apply (Sp (fun t => CMknod d t BFifo mode) BFifo (umasked fe mode)); [exact (fun _ => I)|reflexivity|discriminate|exact S1|assumption]. }
    destruct (S_ISBLK mode || S_ISCHR mode)%bool eqn:Tb.
    { assert (S1 : skip flags mode = negb (has flags WITH_DEVICE_NODES)).
      { assert (Ts : S_ISSOCK mode = false) by (apply orb_true_iff in Tb; destruct Tb as [Q | Q]; apply (Ty _ S_IFSOCK) in Q; auto; discriminate).
        unfold skip. rewrite Tl, Tf, Ts, Tb. cbn [andb orb]. reflexivity. }
      destruct (has flags WITH_DEVICE_NODES) eqn:F; cbn [negb] in *; [|apply Sk, S1].
      destruct (dt_dev e) as [[x y]|] eqn:Edev.
      - apply (Sp (fun t => CMknod d t (body_of e) mode) (body_of e) (umasked fe mode)); [exact (fun _ => I)|reflexivity| |exact S1|]; unfold body_of; rewrite Edev; [discriminate|]. split; [exact Tb|]. split; [exact Edev|reflexivity].
      - exfalso. inversion He as [m s V T E|m V T E|m t V T T1 T2 T3 E|m x y V T X Y E|m V T E]; subst e; cbn in *; subst mode; try congruence.
        rewrite Tf in T. cbn in T. apply orb_true_iff in Tb. destruct Tb as [Q | Q]; apply (Ty _ S_IFSOCK) in Q; auto; try discriminate; unfold S_ISSOCK in T; congruence. }
    destruct (S_ISSOCK mode) eqn:Ts; [|exact I].
    assert (S1 : skip flags mode = negb (has flags WITH_SOCKETS)).
    { unfold skip. rewrite Tl, Tf, Ts, Tb. cbn [andb orb]. rewrite ?orb_false_r. reflexivity. }
    destruct (has flags WITH_SOCKETS) eqn:F; cbn [negb] in *; [|apply Sk, S1].
    apply (Sp (fun t => CMknod d t BSock mode) BSock (umasked fe mode)); [exact (fun _ => I)|reflexivity|discriminate|exact S1|assumption].
Qed.
End Child.
