(** Hard links to seeds: the calls, one by one, and the program. *)
From Verif Require Import Base FeatureFlags ArchiveBase Decoder DecoderSpec Fs Extract ExtractSpec ExtractProofs1 ExtractProofs2 ExtractProofs3 ExtractedProofs1 ExtractedProofs2 ExtractProofs6 Hardlink HardlinkSpec.
Local Open Scope N_scope.

(** ** Names *)
Lemma beq_comm a b : beq a b = beq b a.
Proof. destruct (beq a b) eqn:E; symmetry; [apply beq_eq in E; subst; apply beq_refl|]. apply beq_neq in E. apply beq_neq. congruence. Qed.
Lemma get_del {A} n m (l : list (list N * A)) : get n (del m l) = if beq n m then None else get n l.
Proof.
  induction l as [|[k x] l IH]; cbn [get del]; [destruct (beq n m); reflexivity|]. destruct (beq k m) eqn:E.
  - apply beq_eq in E. subst k. rewrite IH. destruct (beq n m) eqn:F; [reflexivity|]. rewrite beq_comm, F. reflexivity.
  - cbn [get]. rewrite IH. destruct (beq k n) eqn:F; [|reflexivity]. apply beq_eq in F. subst k. rewrite E. reflexivity.
Qed.
Lemma get_put {A} n m (x : A) l : get n (put m x l) = if beq n m then Some x else get n l.
Proof. unfold put. cbn [get]. rewrite get_del, (beq_comm m n). destruct (beq n m); reflexivity. Qed.

Lemma upd_same f n v : upd f n v n = v.
Proof. unfold upd. rewrite beq_refl. reflexivity. Qed.
Lemma upd_other f n v m : m <> n -> upd f n v m = f m.
Proof. intros H. unfold upd. apply beq_neq in H. rewrite H. reflexivity. Qed.

Lemma lists_ext w d f g : lists w d f -> (forall n, f n = g n) -> lists w d g.
Proof. intros (a & es & H1 & H2) H. exists a, es. split; [exact H1|]. intros n. rewrite H2. apply H. Qed.
Lemma lists_fun w d f g : lists w d f -> lists w d g -> forall n, f n = g n.
Proof. intros (a & es & H1 & H2) (a' & es' & H3 & H4) n. rewrite H1 in H3. injection H3 as <- <-. rewrite <- H2. apply H4. Qed.

Section Calls.
Variables (fe : fenv) (undo : bool).
Notation unharmed := (unharmed undo).

Lemma unharmed_refl w : unharmed w w.
Proof. intros i a b H _. exists a. auto. Qed.
Lemma unharmed_trans w w1 w2 : unharmed w w1 -> unharmed w1 w2 -> unharmed w w2.
Proof.
  intros H1 H2 i a b H Hb. destruct (H1 _ _ _ H Hb) as (a1 & E1 & R1). destruct (H2 _ _ _ E1 Hb) as (a2 & E2 & R2). exists a2. split; [exact E2|].
  destruct R1 as [-> | [U ->]], R2 as [-> | [U2 ->]]; auto.
Qed.
(** A change of a directory. *)
Lemma unharmed_dir w d a es nd : f_ino w d = Some (mkInode a (BDir es)) -> unharmed w (set_ino w d nd).
Proof.
  intros H i a' b Hi Hb. rewrite f_set. destruct (N.eqb_spec i d) as [->|]; [exfalso|exists a'; auto]. rewrite H in Hi. injection Hi as _ <-. exact (Hb es eq_refl).
Qed.
Lemma lists_set w d a es nd f : f_ino w d = Some (mkInode a (BDir es)) -> lists (set_ents fe w d nd f) d (fun n => get n f).
Proof. intros H. unfold set_ents. eexists _, f. rewrite f_set, N.eqb_refl. split; [reflexivity|reflexivity]. Qed.

(** A regular file or anything else that isn't a directory. *)
Definition plainly (w : fs) (i : N) : Prop := exists a b, f_ino w i = Some (mkInode a b) /\ forall es, b <> BDir es.
Lemma plainly_keep w w1 i : plainly w i -> unharmed w w1 -> plainly w1 i.
Proof. intros (a & b & H & Hb) U. destruct (U _ _ _ H Hb) as (a' & H' & _). exists a', b. auto. Qed.

Lemma where_comp w d n : is_component n -> where_ fe w d n = Some (d, n).
Proof. apply where_plain. Qed.

Lemma leads_fun w root path i j : leads fe w root path i -> leads fe w root path j -> i = j.
Proof.
  intros (d & n & f & H1 & H2 & H3) (d' & n' & f' & H4 & H5 & H6). rewrite H1 in H4. injection H4 as <- <-.
  rewrite (lists_fun _ _ _ _ H2 H5) in H3. congruence.
Qed.

Lemma on_name_leads' w root path k x w1 : on_name fe w root path k = (x, w1) ->
  (w1 = w /\ exists e, x = RFail e) \/ exists d nd es n i y, where_ fe w root path = Some (d, n) /\ dir_at w d = Some (nd, es) /\ get n es = Some i /\ f_ino w i = Some y /\
    leads fe w root path i /\ k d nd es n i y = (x, w1).
Proof.
  unfold on_name, on_dir. destruct (where_ fe w root path) as [[d n]|] eqn:W; [|intros H; injection H as <- <-; eauto].
  destruct (dir_at w d) as [[nd es]|] eqn:D; [|intros H; injection H as <- <-; eauto].
  destruct (get n es) as [i|] eqn:G; [|intros H; injection H as <- <-; eauto].
  destruct (f_ino w i) as [y|] eqn:Y; [|intros H; injection H as <- <-; eauto]. intros H. right. exists d, nd, es, n, i, y. repeat (split; [auto; fail|]).
  split; [|exact H]. exists d, n, (fun m => get m es). split; [exact W|]. split; [|exact G]. unfold dir_at in D. destruct (f_ino w d) as [[a b]|] eqn:E; [|discriminate].
  destruct b; try discriminate. cbn in D. injection D as <- <-. exists a, ents. auto.
Qed.

Lemma stat_result w root path t x w1 : (exists c, c = (if len path =? 0 then CStat root else CStatAt root path) /\ result_of fe t w c = (x, w1)) -> w1 = w /\
  (forall nd, x = RStat nd -> len path <> 0 -> exists i, leads fe w root path i /\ f_ino w i = Some nd).
Proof.
  intros (c & -> & H). assert (H' : (w1 = w /\ exists e, x = RFail e) \/ fs_do fe w (if len path =? 0 then CStat root else CStatAt root path) = (x, w1)).
  { destruct (len path =? 0), t; cbn in H; try (injection H as <- <-; eauto; fail); auto. }
  destruct H' as [(-> & e & ->) | H']; [split; [reflexivity|discriminate]|]. destruct (N.eqb_spec (len path) 0) as [E|E]; cbn [fs_do] in H'.
  - destruct (f_ino w root) as [nd|]; injection H' as <- <-; (split; [reflexivity|]); intros nd' _ F; exfalso; auto.
  - apply on_name_leads' in H' as [(-> & e & ->) | (d & nd & es & n & i & y & _ & _ & _ & Y & L & K)]; [split; [reflexivity|discriminate]|].
    injection K as <- <-. split; [reflexivity|]. intros nd' Q _. injection Q as <-. eauto.
Qed.

Lemma link_result w root path d n f t x w1 : is_component n -> lists w d f ->
  (match t with TFail e => (RFail e, w) | _ => link_do fe w root path d n end) = (x, w1) ->
  (w1 = w /\ exists e, x = RFail e) \/
  (exists i, x = RDone /\ f n = None /\ leads fe w root path i /\ plainly w i /\ len path <> 0 /\ lists w1 d (upd f n (Some i)) /\ unharmed w w1).
Proof.
  intros Hn Hf H. assert (H' : (w1 = w /\ exists e, x = RFail e) \/ link_do fe w root path d n = (x, w1)) by (destruct t; auto; injection H as <- <-; eauto).
  destruct H' as [H' | H']; [auto|]. unfold link_do in H'. destruct (N.eqb_spec (len path) 0) as [E|E]; [injection H' as <- <-; eauto|].
  apply on_name_leads' in H' as [H' | (d' & nd' & es' & n' & i & y & _ & _ & _ & Y & L & K)]; [auto|].
  destruct Hf as (a & es & Hd & Hf). unfold on_dir in K. rewrite where_comp in K by exact Hn. unfold dir_at in K. rewrite Hd in K. cbn [i_body i_attrs] in K.
  destruct (get n es) as [j|] eqn:G; [injection K as <- <-; eauto|]. destruct (NAME_MAX <? len n); [injection K as <- <-; eauto|].
  destruct (is_dir y) eqn:Di; [injection K as <- <-; eauto|]. destruct (a_imm a || a_imm (i_attrs y))%bool; [injection K as <- <-; eauto|].
  injection K as <- <-. right. exists i. split; [reflexivity|]. split; [rewrite <- Hf; exact G|]. split; [exact L|].
  split. { destruct y as [ya yb]. exists ya, yb. split; [exact Y|]. intros es0 ->. discriminate. }
  split; [exact E|]. split.
  - eapply lists_ext; [eapply lists_set, Hd|]. cbn beta. intros m. rewrite get_put. unfold upd. rewrite Hf. reflexivity.
  - apply unharmed_dir with (1 := Hd).
Qed.

Lemma rename_result w d f a b i t x w1 : is_component a -> is_component b -> a <> b -> lists w d f -> f a = Some i -> plainly w i ->
  (forall j, f b = Some j -> f_ino w j <> None -> plainly w j) -> fair t (CRename d a b) -> result_of fe t w (CRename d a b) = (x, w1) ->
  (w1 = w /\ exists e, x = RFail e /\ e <> ENOTDIR /\ e <> EISDIR) \/
  (x = RDone /\ ((f b = Some i /\ w1 = w) \/ (f b <> Some i /\ lists w1 d (upd (upd f a None) b (Some i)) /\ unharmed w w1))).
Proof.
  intros Ha Hb Hab (ad & es & Hd & Hf) Fa (ai & bi & Hi & Pi) Hj F H.
  assert (H' : (w1 = w /\ exists e, x = RFail e /\ e <> ENOTDIR /\ e <> EISDIR) \/ fs_do fe w (CRename d a b) = (x, w1)).
  { destruct t; cbn in H; auto. injection H as <- <-. left. destruct F. eauto. }
  destruct H' as [H' | H']; [auto|]. cbn [fs_do] in H'. rewrite (on_name_leads fe _ _ ad es a i (mkInode ai bi)) in H'; auto; [|rewrite Hf; exact Fa].
  rewrite (where_comp w d b Hb), N.eqb_refl in H'. cbn [negb] in H'. unfold rename_to in H'. cbn [i_attrs i_body] in H'.
  destruct (a_imm ad || a_imm ai)%bool; [injection H' as <- <-; left; split; [reflexivity|]; eexists; repeat split; discriminate|].
  destruct (NAME_MAX <? len b); [injection H' as <- <-; left; split; [reflexivity|]; eexists; repeat split; discriminate|].
  assert (E : forall m, get m (put b i (del a es)) = upd (upd f a None) b (Some i) m) by (intros m; rewrite get_put, get_del; unfold upd; rewrite Hf; reflexivity).
  rewrite Hf in H'. destruct (f b) as [j|] eqn:Fb.
  - destruct (f_ino w j) as [[aj bj]|] eqn:Fj; [|injection H' as <- <-; left; split; [reflexivity|]; eexists; repeat split; discriminate].
    destruct (N.eqb_spec j i) as [->|Ne]; [injection H' as <- <-; right; auto|]. cbn [i_attrs] in H'.
    destruct (a_imm aj); [injection H' as <- <-; left; split; [reflexivity|]; eexists; repeat split; discriminate|]. cbn [i_body] in H'.
    destruct (Hj j eq_refl) as (aj' & bj' & Qj & Pj); [congruence|]. rewrite Fj in Qj. injection Qj as <- <-.
    destruct bi; [|exfalso; eapply Pi; reflexivity|..]; (destruct bj; [|exfalso; eapply Pj; reflexivity|..]);
    injection H' as <- <-; right; (split; [reflexivity|]); right; (split; [congruence|]); (split; [eapply lists_ext; [eapply lists_set, Hd|exact E]|apply unharmed_dir with (1 := Hd)]).
  - injection H' as <- <-. right. split; [reflexivity|]. right. split; [discriminate|].
    split; [eapply lists_ext; [eapply lists_set, Hd|exact E]|apply unharmed_dir with (1 := Hd)].
Qed.

Lemma unlink_result w d f n t x w1 : is_component n -> lists w d f -> result_of fe t w (CUnlink d n) = (x, w1) ->
  (w1 = w /\ exists e, x = RFail e) \/ (x = RDone /\ lists w1 d (upd f n None) /\ unharmed w w1).
Proof.
  intros Hn (a & es & Hd & Hf) H. assert (H' : (w1 = w /\ exists e, x = RFail e) \/ fs_do fe w (CUnlink d n) = (x, w1)) by (destruct t; cbn in H; auto; injection H as <- <-; eauto).
  destruct H' as [H' | H']; [auto|]. cbn [fs_do] in H'. unfold on_name, on_dir in H'. rewrite where_comp in H' by exact Hn. unfold dir_at in H'. rewrite Hd in H'. cbn [i_body i_attrs] in H'.
  destruct (get n es) as [i|] eqn:G; [|injection H' as <- <-; eauto]. destruct (f_ino w i) as [y|]; [|injection H' as <- <-; eauto].
  destruct (is_dir y); [injection H' as <- <-; eauto|]. cbn [i_attrs] in H'. destruct (a_imm a || a_imm (i_attrs y))%bool; [injection H' as <- <-; eauto|].
  injection H' as <- <-. right. split; [reflexivity|]. split; [|apply unharmed_dir with (1 := Hd)].
  eapply lists_ext; [eapply lists_set, Hd|]. cbn beta. intros m. rewrite get_del. unfold upd. rewrite Hf. reflexivity.
Qed.

(** Calls that change nothing. *)
Definition idle (c : call) : Prop := match c with COpen _ _ | CStat _ | CRandom => True | _ => False end.
Lemma idle_result w c t x w1 : idle c -> result_of fe t w c = (x, w1) -> w1 = w.
Proof.
  intros Hc H. assert (H' : w1 = w \/ fs_do fe w c = (x, w1)) by (destruct t, c; cbn in H, Hc; try contradiction; auto; injection H as _ <-; auto).
  destruct H' as [H' | H']; [exact H'|]. destruct c; cbn in Hc; try contradiction; cbn [fs_do] in H'.
  - apply on_name_leads' in H' as [[H' _] | (? & ? & ? & ? & ? & y & _ & _ & _ & _ & _ & K)]; [exact H'|]. destruct (i_body y); injection K as _ <-; reflexivity.
  - destruct (f_ino w i); injection H' as _ <-; reflexivity.
  - injection H' as _ <-. reflexivity.
Qed.
Lemma drop_result w d f i t x w1 : undo = true -> lists w d f -> result_of fe t w (CDropImm i) = (x, w1) -> lists w1 d f /\ unharmed w w1.
Proof.
  intros U (a & es & Hd & Hf) H. assert (H' : w1 = w \/ fs_do fe w (CDropImm i) = (x, w1)) by (destruct t; cbn in H; auto; injection H as _ <-; auto).
  destruct H' as [-> | H']; [split; [exists a, es; auto|apply unharmed_refl]|]. cbn [fs_do] in H'. destruct (f_ino w i) as [[ai bi]|] eqn:Fi; [|injection H' as _ <-; split; [exists a, es; auto|apply unharmed_refl]].
  cbn [i_attrs] in H'. destruct (a_imm ai) eqn:Im; injection H' as _ <-; [|split; [exists a, es; auto|apply unharmed_refl]]. split.
  - unfold lists. rewrite f_set. destruct (N.eqb_spec d i) as [->|]; [|exists a, es; auto]. rewrite Hd in Fi. injection Fi as <- <-. unfold set_attrs. cbn [i_body]. do 2 eexists. split; [reflexivity|exact Hf].
  - intros j aj bj Hj Pj. rewrite f_set. destruct (N.eqb_spec j i) as [->|]; [|exists aj; auto]. rewrite Hj in Fi. injection Fi as <- <-. unfold set_attrs. cbn [i_body].
    eexists. split; [reflexivity|]. right. auto.
Qed.
End Calls.

(** ** Programs *)
Section Programs.
Variables (fe : fenv) (cfg : xcfg).
Notation undo := (c_undo cfg).
Notation unharmed := (unharmed undo).

Fixpoint okp {A} (p : prog A) (w : fs) (S : fs -> Prop) (Q : res A -> fs -> Prop) : Prop :=
  match p with
  | Ret r => Q r w
  | Sys c k => forall t x w1, fair t c -> result_of fe t w c = (x, w1) -> S w1 /\ okp (k x) w1 S Q
  end.
Fixpoint hok {A} (p : hprog A) (w : fs) (S : fs -> Prop) (Q : res A -> fs -> Prop) : Prop :=
  match p with
  | HRet r => Q r w
  | HSys c k => forall t x w1, fair t c -> result_of fe t w c = (x, w1) -> S w1 /\ hok (k x) w1 S Q
  | HLink r q d n k => forall t x w1, (match t with TFail e => (RFail e, w) | _ => link_do fe w r q d n end) = (x, w1) -> S w1 /\ hok (k x) w1 S Q
  end.
Lemma okp_bind {A B} (p : prog A) (f : res A -> prog B) (S : fs -> Prop) (Q : res B -> fs -> Prop) (Q1 : res A -> fs -> Prop) : forall w, okp p w S Q1 -> (forall r w1, Q1 r w1 -> okp (f r) w1 S Q) -> okp (pbind p f) w S Q.
Proof. induction p as [r|c k IH]; intros w H HQ; cbn [okp pbind] in *; [auto|]. intros t x w1 F R. destruct (H _ _ _ F R). eauto. Qed.
Lemma hok_bind {A B} (p : hprog A) (f : res A -> hprog B) (S : fs -> Prop) (Q : res B -> fs -> Prop) (Q1 : res A -> fs -> Prop) : forall w, hok p w S Q1 -> (forall r w1, Q1 r w1 -> hok (f r) w1 S Q) -> hok (hbind p f) w S Q.
Proof.
  induction p as [r|c k IH|r q d n k IH]; intros w H HQ; cbn [hok hbind] in *; [auto| |].
  - intros t x w1 F R. destruct (H _ _ _ F R). eauto.
  - intros t x w1 R. destruct (H _ _ _ R). eauto.
Qed.
Lemma hok_lift {A} (p : prog A) (S : fs -> Prop) (Q : res A -> fs -> Prop) : forall w, okp p w S Q -> hok (lift p) w S Q.
Proof. induction p as [r|c k IH]; intros w H; cbn [okp hok lift] in *; [auto|]. intros t x w1 F R. destruct (H _ _ _ F R). eauto. Qed.
Lemma okp_weaken {A} (p : prog A) (S : fs -> Prop) (Q Q1 : res A -> fs -> Prop) : forall w, okp p w S Q1 -> (forall r w1, Q1 r w1 -> Q r w1) -> okp p w S Q.
Proof. induction p as [r|c k IH]; intros w H HQ; cbn [okp] in *; [auto|]. intros t x w1 F R. destruct (H _ _ _ F R). eauto. Qed.
Lemma hok_passes {A} (p : hprog A) w l o : hpasses fe p w l o -> forall (S : fs -> Prop) (Q : res A -> fs -> Prop), hok p w S Q -> Forall S l /\ forall r, o = Some r -> Q r (last l w).
Proof.
  induction 1 as [p w|r w|c k t w x w1 l o F R P IH|r q d n k t w x w1 l o R P IH]; intros S Q Hk.
  - split; [constructor|discriminate].
  - split; [constructor|]. intros r' E. injection E as <-. exact Hk.
  - cbn [hok] in Hk. destruct (Hk _ _ _ F R) as [H1 H2]. destruct (IH _ _ H2) as [H3 H4]. split; [constructor; assumption|].
    intros r E. rewrite last_cons. apply H4, E.
  - cbn [hok] in Hk. destruct (Hk _ _ _ R) as [H1 H2]. destruct (IH _ _ H2) as [H3 H4]. split; [constructor; assumption|].
    intros r' E. rewrite last_cons. apply H4, E.
Qed.

(** A state of the directory [d], coming from [w0]. *)
Definition at_ (w0 : fs) (d : N) (f : list N -> option N) (w : fs) : Prop := lists w d f /\ unharmed w0 w.
Lemma at_step w0 d f w f1 w1 : at_ w0 d f w -> lists w1 d f1 -> unharmed w w1 -> at_ w0 d f1 w1.
Proof. intros [_ H] H1 H2. split; [exact H1|]. eapply unharmed_trans; eassumption. Qed.

Lemma okp_drop_immutable w0 d n f w S : undo = true -> at_ w0 d f w -> (forall w, at_ w0 d f w -> (S : fs -> Prop) w) -> okp (drop_immutable d n) w S (fun _ w1 => at_ w0 d f w1).
Proof.
  intros U K HS. unfold drop_immutable. eapply okp_bind with (Q1 := fun _ w1 => at_ w0 d f w1).
  { cbn. intros t x w1 _ R. apply idle_result in R; [|exact Logic.I]. subst w1. auto. }
  clear w K. intros r w K. destruct r as [i|e| |]; try exact K; [|destruct e; exact K].
  eapply okp_bind with (Q1 := fun _ w1 => at_ w0 d f w1).
  { cbn. intros t x w1 _ R. apply idle_result in R; [|exact Logic.I]. subst w1. auto. }
  clear w K. intros r w K. destruct r as [[| |nd| | | |]| | |]; try exact K.
  assert (O : okp (do! c <- sysnum (CDropImm i) ;; Ret (Ok (negb (c =? 0)))) w S (fun _ w1 => at_ w0 d f w1)).
  { eapply okp_bind with (Q1 := fun _ w1 => at_ w0 d f w1); [|intros [c| | |] w1 K1; exact K1]. cbn. intros t x w1 _ R.
    destruct (drop_result _ _ _ _ _ _ _ _ _ U (proj1 K) R) as [R1 R2]. assert (K1 : at_ w0 d f w1) by exact (at_step _ _ _ _ _ _ K R1 R2). auto. }
  destruct (i_body nd); try exact K; exact O.
Qed.

(** Installing a file under a name that isn't a directory's. *)
Definition renamed (f : list N -> option N) (t name : list N) (i : N) (g : list N -> option N) : Prop :=
  (f name = Some i /\ g = f) \/ (f name <> Some i /\ g = upd (upd f t None) name (Some i)).
Definition nodir (w0 : fs) (f : list N -> option N) (name : list N) : Prop := forall j, f name = Some j -> plainly w0 j.

Lemma okp_rename w0 d f w t name i (S : fs -> Prop) (Q : res ret -> fs -> Prop) : is_component t -> is_component name -> t <> name -> f t = Some i -> plainly w0 i -> nodir w0 f name ->
  at_ w0 d f w -> (forall w, at_ w0 d f w -> S w) -> (forall g w, renamed f t name i g -> at_ w0 d g w -> S w) ->
  (forall e w, e <> ENOTDIR -> e <> EISDIR -> at_ w0 d f w -> Q (Err e) w) -> (forall g w, renamed f t name i g -> at_ w0 d g w -> Q (Ok RDone) w) ->
  okp (sys (CRename d t name)) w S Q.
Proof.
  intros Ht Ho Hne Ft Pi Nd K S1 S2 Q1 Q2. cbn. intros tr x w1 F R. destruct K as [K1 K2].
  assert (Hj : forall j, f name = Some j -> f_ino w j <> None -> plainly w j) by (intros j Hj _; apply (plainly_keep _ _ _ _ (Nd j Hj) K2)).
  destruct (rename_result fe undo _ _ _ _ _ i _ _ _ Ht Ho Hne K1 Ft (plainly_keep _ _ _ _ Pi K2) Hj F R) as [(-> & e & -> & E1 & E2) | (-> & [(E & ->) | (E & L & U)])].
  - split; [apply S1|apply Q1]; auto; split; auto.
  - assert (H : renamed f t name i f) by (left; auto). split; [eapply S2|eapply Q2]; eauto; split; auto.
  - assert (H : renamed f t name i (upd (upd f t None) name (Some i))) by (right; auto). assert (H' : at_ w0 d (upd (upd f t None) name (Some i)) w1) by (split; [exact L|eapply unharmed_trans; eassumption]).
    split; [eapply S2|eapply Q2]; eauto.
Qed.

Lemma okp_install w0 d f w t name i (S : fs -> Prop) : is_component t -> is_component name -> t <> name -> f t = Some i -> plainly w0 i -> nodir w0 f name ->
  at_ w0 d f w -> (forall w, at_ w0 d f w -> S w) -> (forall g w, renamed f t name i g -> at_ w0 d g w -> S w) ->
  okp (install_file cfg d t name) w S (fun r w1 => match r with Ok _ => exists g, renamed f t name i g /\ at_ w0 d g w1 | _ => at_ w0 d f w1 end).
Proof.
  intros Ht Ho Hne Ft Pi Nd K S1 S2. unfold install_file.
  apply okp_bind with (Q1 := fun (r : res (res unit)) w1 => match r with
     | Ok (Ok _) => exists g, renamed f t name i g /\ at_ w0 d g w1 | Ok (Err e) => e <> ENOTDIR /\ e <> EISDIR /\ at_ w0 d f w1 | _ => at_ w0 d f w1 end).
  2: { intros r w1 H. destruct r as [[u|e| |]|e| |]; try exact H. destruct H as (H1 & H2 & H3). destruct e; try exact H3; congruence. }
  unfold retrying.
  apply okp_bind with (Q1 := fun (r : res ret) w1 => match r with Ok _ => exists g, renamed f t name i g /\ at_ w0 d g w1 | Err e => e <> ENOTDIR /\ e <> EISDIR /\ at_ w0 d f w1 | _ => False end).
  { eapply okp_rename; eauto. }
  clear w K. intros r w H. destruct r as [r|e| |]; [exact H| |destruct H..].
  assert (O : okp (if negb undo then Ret (Ok (Err EPERM)) else do! dropped <- drop_immutable d name ;;
           if dropped : bool then pbind (sys (CRename d t name)) (fun r => Ret (Ok (match r with Ok _ => Ok tt | Err e => Err e | Abort => Abort | UB => UB end)))
           else Ret (Ok (Err EPERM))) w S (fun (r : res (res unit)) w1 => match r with
     | Ok (Ok _) => exists g, renamed f t name i g /\ at_ w0 d g w1 | Ok (Err e) => e <> ENOTDIR /\ e <> EISDIR /\ at_ w0 d f w1 | _ => at_ w0 d f w1 end)).
  { destruct H as (_ & _ & K). destruct undo eqn:U; cbn [negb]; [|repeat split; (discriminate || exact (proj1 K) || exact (proj2 K))].
    eapply okp_bind; [apply okp_drop_immutable; eauto|]. cbn beta. clear w K. intros r w K. destruct r as [[|]|e1| |]; try exact K.
    - apply okp_bind with (Q1 := fun (r : res ret) w1 => match r with Ok _ => exists g, renamed f t name i g /\ at_ w0 d g w1 | Err e => e <> ENOTDIR /\ e <> EISDIR /\ at_ w0 d f w1 | _ => False end).
      { eapply okp_rename; eauto. }
      intros r w1 H. destruct r; try exact H; destruct H.
    - split; [discriminate|]. split; [discriminate|exact K]. }
  destruct e; try exact H; exact O.
Qed.
End Programs.
