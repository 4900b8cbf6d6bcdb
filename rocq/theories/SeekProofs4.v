(** Seeking, part 4: what the decoder knows about the archive, and how data gets to it. *)
From Coq Require Import Permutation.
From Verif Require Import Base FeatureFlags ArchiveBase Bst Decoder DecoderSpec DecoderProofs DecoderProofs2 DecoderProofs3 DecoderProofs4 DecoderProofs5 Encoder EncoderProofs RoundTrip1 RoundTrip2 RoundTrip3 RoundTrip4 Seek SeekSpec SeekProofs1 SeekProofs2 SeekProofs3.
Local Open Scope N_scope.
Local Arguments fld : simpl never.
Local Arguments body : simpl never.

Section Know.
Variables (env : denv) (ev : eenv) (b : list N) (T : tree).
Let ff := ev_ff ev.
Let hash := ev_hash ev.

(** ** Knowledge *)
Definition mode_ok (n : dnode) (t : tree) : Prop :=
  dn_entry n = Some (entry_of t) \/
  dn_entry n = None /\ (dn_mode n = MODE_NONE \/ S_ISDIR (dn_mode n) = true /\ is_dir t = true).
Definition dir_ok (x : ext) (pre bt : list N) (t : tree) : Prop :=
  match t with
  | TDir m ents => exists bl ls gb tab, bt = ser_meta ev m ++ bl ++ gb /\ arch_ents ev ents bl ls /\ searchable tab ls /\
      gb = obj F_GOODBYE (concat (map ser_gitem tab) ++ le64 (len (ser_meta ev m ++ bl)) ++ le64 (40 + 24 * len ls) ++ le64 F_GOODBYE_TAIL_MARKER) /\
      (x_gboff x = UINT64_MAX \/ x_gboff x = len pre + len (ser_meta ev m ++ bl)) /\ (x_gb x = None \/ x_gb x = Some tab)
  | _ => True
  end.
Definition pay_ok (x : ext) (pre bt : list N) (t : tree) : Prop :=
  x_pay x = UINT64_MAX \/ exists m data q, t = TReg m data /\ bt = q ++ data /\ x_pay x = len pre + len q.
Record good_at (t : tree) (pre bt rest : list N) (p : list (list N)) (n : dnode) (x : ext) : Prop := mkGood {
  g_path : at_path T p t;
  g_b : b = pre ++ bt ++ rest;
  g_off : dn_entry_offset n = len pre;
  g_arch : arch ev t bt;
  g_next : match t with TOther _ => next_ok rest | _ => True end;
  g_end : x_end x = UINT64_MAX \/ x_end x = len pre + len bt;
  g_mode : mode_ok n t;
  g_pay : pay_ok x pre bt t;
  g_dir : dir_ok x pre bt t }.
Definition good (p : list (list N)) (n : dnode) (x : ext) : Prop := exists t pre bt rest, good_at t pre bt rest p n x.

Fixpoint stack_ok (ns : list dnode) (xs : list ext) : Prop :=
  match ns, xs with
  | n :: up, x :: xs => good (path_of (n :: up)) n x /\ stack_ok up xs
  | [], [] => True
  | _, _ => False
  end.
Definition root_ok (ns : list dnode) (xs : list ext) : Prop :=
  match rev ns, rev xs with
  | n :: _, x :: _ => S_ISDIR (node_mode n) = true /\ dn_entry_offset n = 0 /\ x_end x = len b
  | _, _ => False
  end.
Lemma root_push n' n up x' x xs : root_ok (n :: up) (x :: xs) -> root_ok (n' :: n :: up) (x' :: x :: xs).
Proof.
  unfold root_ok. cbn [rev]. destruct (rev up ++ [n]) as [|r1 rr] eqn:E1; [destruct (rev up); discriminate|].
  destruct (rev xs ++ [x]) as [|y1 yr] eqn:E2; [destruct (rev xs); discriminate|]. auto.
Qed.
Lemma root_same n n' up x x' xs : len up = len xs -> root_ok (n :: up) (x :: xs) -> node_mode n' = node_mode n -> dn_entry_offset n' = dn_entry_offset n -> x_end x' = x_end x -> root_ok (n' :: up) (x' :: xs).
Proof.
  unfold root_ok. cbn [rev]. intros L H E1 E2 E3.
  destruct (rev up) as [|r1 rr] eqn:R1; destruct (rev xs) as [|y1 yr] eqn:R2; cbn [app] in *.
  - rewrite E1, E2, E3. exact H.
  - exfalso. apply (f_equal (@rev _)) in R1. rewrite rev_involutive in R1. subst up. apply (f_equal (@length _)) in R2. rewrite rev_length in R2.
    unfold len in L. cbn in *. lia.
  - exfalso. apply (f_equal (@rev _)) in R2. rewrite rev_involutive in R2. subst xs. apply (f_equal (@length _)) in R1. rewrite rev_length in R1.
    unfold len in L. cbn in *. lia.
  - exact H.
Qed.
Lemma stack_len ns : forall xs, stack_ok ns xs -> len ns = len xs.
Proof. induction ns as [|n ns IH]; intros [|x xs] H; try contradiction; [reflexivity|]. destruct H as [_ H]. rewrite !len_cons, (IH xs H). reflexivity. Qed.

(** What a decoder knows that isn't reading (or isn't going to go on reading). *)
Record knows (s : sdec) : Prop := mkKnows {
  k_stack : stack_ok (d_nodes (s_d s)) (s_x s);
  k_root : root_ok (d_nodes (s_d s)) (s_x s);
  k_down : s_down s = [];
  k_ff : ff_ok env ff (d_ff (s_d s)) }.

(** A node known well enough for seeking below it. *)
Definition usable (n : dnode) (x : ext) : Prop :=
  node_mode n <> MODE_NONE /\ (S_ISDIR (node_mode n) = true -> x_gb x <> None -> x_gboff x <> UINT64_MAX) /\ (x_gb x = None -> x_gboff x <> UINT64_MAX \/ x_end x <> UINT64_MAX).
Fixpoint uses (ns : list dnode) (xs : list ext) : Prop :=
  match ns, xs with n :: ns, x :: xs => usable n x /\ uses ns xs | _, _ => True end.
(** All nodes but the current one are; that one as well if it's the root or if there was no file at the path sought. *)
Record leaves (goal : list (list N)) (r : sret) (s : sdec) : Prop := mkLeaves {
  l_up : uses (tl (d_nodes (s_d s))) (tl (s_x s));
  l_top : tl (d_nodes (s_d s)) = [] \/ r = R_NOT_FOUND -> uses (d_nodes (s_d s)) (s_x s);
  l_found : r = R_FOUND -> path_of (d_nodes (s_d s)) = goal }.

(** ** Data *)
Variable Q : sret -> sdec -> N -> Prop.
Notation leads := (leads env hash b Q).
Notation sstep := (sstep env hash).

(** A decoder at [a], with the data up to [pos]. *)
Definition SS (st : sstate) (f : N) (ns : list dnode) (xs : list ext) (B a : N) (sub : list N) (idx off en pos : N) : sdec :=
  mkSdec (mkDec D_ENTERED f ns (takeN (pos - a) (dropN a b)) false a 0 0 B) st xs [] (Some sub) false idx off en UINT64_MAX.

Lemma sput_SS st f ns xs B a sub idx off en pos k : a <= pos < len b -> 0 < k ->
  sput (SS st f ns xs B a sub idx off en pos) (takeN k (dropN pos b)) =
  Ok (SS st f ns xs B a sub idx off en (pos + len (takeN k (dropN pos b)))).
Proof.
  intros Hp Hk. unfold sput, SS, decoder_put_data. cbn [s_d d_eof].
  assert (L : len (takeN k (dropN pos b)) = N.min k (len b - pos)) by (rewrite len_takeN, len_dropN; reflexivity).
  destruct (N.eqb_spec (len (takeN k (dropN pos b))) 0) as [E | _]; [rewrite L in E; lia|]. cbn [bind]. unfold with_d. cbn [s_st s_x s_down s_sub s_sib s_idx s_off s_end s_pay d_state d_ff d_nodes d_buf d_aoff d_poff d_step d_bound d_eof].
  do 3 f_equal. 
  replace (takeN k (dropN pos b)) with (takeN (len (takeN k (dropN pos b))) (dropN pos b)) at 1.
  2:{ rewrite L. destruct (N.le_gt_cases k (len b - pos)) as [C | C]; [f_equal; lia|]. rewrite !takeN_all by (rewrite len_dropN; lia). reflexivity. }
  set (j := len (takeN k (dropN pos b))) in *. replace (dropN pos b) with (dropN (pos - a) (dropN a b)) by (rewrite dropN_dropN; f_equal; lia).
  replace j with ((pos + j - a) - (pos - a)) at 1 by lia. apply takeN_split. lia.
Qed.

Lemma feed (I : N -> Prop) st ns xs B a sub idx off en :
  (forall f pos, I f -> a <= pos <= len b ->
    leads (SS st f ns xs B a sub idx off en pos) pos \/
    pos < len b /\ exists f', I f' /\ sstep (SS st f ns xs B a sub idx off en pos) = Ok (SR R_REQUEST, SS st f' ns xs B a sub idx off en pos)) ->
  forall f pos, I f -> a <= pos <= len b -> leads (SS st f ns xs B a sub idx off en pos) pos.
Proof.
  intros H. assert (G : forall m f pos, (N.to_nat (len b - pos) < m)%nat -> I f -> a <= pos <= len b -> leads (SS st f ns xs B a sub idx off en pos) pos).
  { induction m as [|m IH]; intros f pos Hm Hf Hp; [lia|]. destruct (H f pos Hf Hp) as [L | (L & f' & F & R)]; [exact L|].
    eapply leads_request; [exact R|exact L| |].
    - intros k Hk. eexists. apply sput_SS; [lia|exact Hk].
    - intros k s2 Hk E. rewrite sput_SS in E by (lia || exact Hk). injection E as <-.
      assert (Lk : len (takeN k (dropN pos b)) = N.min k (len b - pos)) by (rewrite len_takeN, len_dropN; reflexivity).
      apply IH; [rewrite Lk; lia|exact F|rewrite Lk; lia]. }
  intros f pos. apply (G (S (N.to_nat (len b - pos)))). lia.
Qed.

Lemma leads_same s s2 pos : sstep s = sstep s2 -> leads s2 pos -> leads s pos.
Proof.
  intros E H. inversion H as [? ? ? ? A1 A2|? ? ? A1 A2|? ? ? ? A1 A2 A3 A4|? ? ? A1 A2 A3 A4]; subst; rewrite <- E in A1.
  - eapply leads_end; eassumption.
  - eapply leads_step; eassumption.
  - eapply leads_seek; eassumption.
  - eapply leads_request; eassumption.
Qed.

(** What do_seek gives. *)
Definition okseek (s : sdec) : Prop :=
  exists r s', do_seek hash s = Ok (r, s') /\
    if r : bool then forall pos, leads s' pos else s_st s' = SNowhere /\ d_step (s_d s') = 0 /\ d_nodes (s_d s') <> [] /\ s_x s' <> [] /\ forall pos, Q R_NOT_FOUND s' pos.
Lemma seek_on_leads s s2 pos : sstep s = seek_on hash s2 -> okseek s2 -> leads s pos.
Proof.
  intros E (r & s' & D & H). unfold seek_on in E. rewrite D in E. cbn [bind] in E. destruct r.
  - eapply leads_step; [exact E|apply H].
  - eapply leads_end; [exact E|apply H].
Qed.

(** Going to the place do_seek has chosen. *)
Definition dir_seek (k : seekto) : Prop := k = KFilename \/ k = KGoodbye \/ k = KTail.
Lemma go k s f n up xs B sub idx off en : dir_seek k -> s_st s = SPrep k -> d_step (s_d s) = 0 ->
  d_ff (s_d s) = f -> d_nodes (s_d s) = n :: up -> d_bound (s_d s) = B -> s_x s = xs -> xs <> [] -> s_down s = [] -> s_sub s = Some sub -> s_sib s = false -> s_idx s = idx ->
  s_off s = off -> s_end s = en -> s_pay s = UINT64_MAX -> S_ISDIR (node_mode n) = true -> off <= len b -> len b < UINT64_MAX ->
  leads (SS (SSeek k) f (n :: up) xs B off sub idx off en off) off -> forall pos, leads s pos.
Proof.
  intros Hk H0 H1 H2 H3 H4 H5 H6 H7 H8 H9 H10 H11 H12 H13 Hm Ho Hb L pos.
  assert (Hn : (node_mode n =? MODE_NONE) = false) by (apply N.eqb_neq; intros E; rewrite E in Hm; discriminate).
  assert (E : apply_seek s k = SS (SSeek k) f (n :: up) xs B off sub idx off en off).
  { unfold apply_seek, SS. rewrite N.sub_diag, takeN_0. rewrite H2, H3, H4, H5, H7, H8, H9, H10, H11, H12, H13. reflexivity. }
  assert (S1 : sstep s = Ok (R_SEEK, apply_seek s k)).
  { unfold Seek.sstep. rewrite H0, H3. destruct (s_x s) as [|x xs'] eqn:X; [congruence|]. unfold advance_buffer. rewrite H1. cbn [N.eqb bind].
    replace (with_d s (s_d s)) with s by (destruct s; reflexivity). rewrite Hn, Hm. cbn [negb]. destruct Hk as [-> | [-> | ->]]; reflexivity. }
  eapply leads_seek; [exact S1| | |rewrite E; exact L].
  - rewrite E. unfold get_seek_offset, SS. cbn [s_st s_off]. destruct (N.eqb_spec off UINT64_MAX) as [Z | _]; [lia|reflexivity].
  - exact Ho.
Qed.
End Know.
