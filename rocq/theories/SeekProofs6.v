(** Seeking, part 6: a seek from any place. *)
From Coq Require Import Permutation.
From Verif Require Import Base FeatureFlags ArchiveBase Bst Decoder DecoderSpec DecoderProofs DecoderProofs2 DecoderProofs3 DecoderProofs4 DecoderProofs5 Encoder EncoderProofs RoundTrip1 RoundTrip2 RoundTrip3 RoundTrip4 ArchiveSpec Seek SeekSpec SeekProofs1 SeekProofs2 SeekProofs3 SeekProofs4 SeekProofs5.
Local Open Scope N_scope.
Local Arguments fld : simpl never.
Local Arguments body : simpl never.

Lemma path_of_cons n m up : path_of (n :: m :: up) = path_of (m :: up) ++ [dn_name n].
Proof. unfold path_of. cbn [removelast map rev]. reflexivity. Qed.

Section Any.
Variables (env : denv) (ev : eenv) (b : list N) (T : tree).
Let hash := ev_hash ev.
Let ff := ev_ff ev.
Hypothesis HT : dec_tree ff T.
Hypothesis Hdeep : deep 63 T.
Hypothesis Hlen : len b < UINT64_MAX - 16.
Hypothesis Hhash : forall nm, hash nm < two64.
Hypothesis Hdist : distinct_names T.
Hypothesis Hdir : is_dir T = true.

(** The nodes above a node. *)
Lemma stack_up ns : forall xs ms ys, stack_ok ev b T (ns ++ ms) (xs ++ ys) -> length ns = length xs -> stack_ok ev b T ms ys.
Proof.
  induction ns as [|n ns IH]; intros [|x xs] ms ys H L; try discriminate; [exact H|]. cbn [app] in H. destruct H as [_ H]. eapply IH; [exact H|]. cbn in L. congruence.
Qed.
Lemma root_up ns xs m ms y ys : root_ok b (ns ++ m :: ms) (xs ++ y :: ys) -> root_ok b (m :: ms) (y :: ys).
Proof.
  unfold root_ok. rewrite !rev_app_distr. cbn [rev]. destruct (rev ms ++ [m]) as [|r rr] eqn:E1; [destruct (rev ms); discriminate|].
  destruct (rev ys ++ [y]) as [|z zz] eqn:E2; [destruct (rev ys); discriminate|]. cbn [app]. auto.
Qed.

Lemma walk_inv rest : forall p st p' st', walk p st rest = (p', st') -> st <> [] ->
  (match st with (_, x) :: _ => x_end x <> UINT64_MAX | [] => True end) ->
  exists done rest', rest = done ++ rest' /\ st' = rev done ++ st /\
    path_of (map fst st') ++ names_of p' = path_of (map fst st) ++ names_of p /\
    match st' with (_, x) :: _ => x_end x <> UINT64_MAX | [] => True end.
Proof.
  induction rest as [|[ch x] rest IH]; intros p st p' st' H Hs Hx.
  { exists [], []. assert (E : (p', st') = (p, st)) by (rewrite <- H; cbn [walk]; destruct (get_component p) as [[c|] q]; reflexivity). injection E as -> ->. auto. }
  cbn [walk] in H. destruct (get_component p) as [[c|] q] eqn:C.
  2:{ injection H as <- <-. exists [], ((ch, x) :: rest). auto. }
  destruct (beq c (dn_name ch)) eqn:B; cbn [negb] in H.
  2:{ injection H as <- <-. exists [], ((ch, x) :: rest). auto. }
  destruct (N.eqb_spec (x_end x) UINT64_MAX) as [X | X].
  { injection H as <- <-. exists [], ((ch, x) :: rest). auto. }
  destruct (IH _ _ _ _ H ltac:(discriminate) X) as (done & rest' & E1 & E2 & E3 & E4).
  exists ((ch, x) :: done), rest'. split; [cbn; congruence|]. split; [rewrite E2; cbn [rev]; rewrite <- app_assoc; reflexivity|]. split; [|exact E4].
  rewrite E3. cbn [map fst]. destruct st as [|[n0 x0] st]; [contradiction|]. cbn [map fst]. rewrite path_of_cons, <- app_assoc. cbn [app].
  apply component_some in C. destruct C as [C _]. rewrite C. apply beq_eq in B. rewrite B. reflexivity.
Qed.

Lemma combine_fst {A B} (l : list A) : forall m : list B, length l = length m -> map fst (combine l m) = l /\ map snd (combine l m) = m.
Proof. induction l as [|a l IH]; intros [|c m] L; try discriminate; [auto|]. cbn in L. injection L as L. destruct (IH m L) as [E1 E2]. cbn. rewrite E1, E2. auto. Qed.

Lemma seek_goes goal s pos : okseek env ev b (QQ env ev b T goal) s ->
  exists s', (let! (_, s') := do_seek hash s in Ok s') = Ok s' /\ leads env hash b (QQ env ev b T goal) s' pos.
Proof.
  intros (r & s' & D & H). exists s'. fold hash in D. rewrite D. cbn [bind]. split; [reflexivity|]. destruct r; [apply H|].
  destruct H as (H1 & H2 & H3 & H4 & H5). eapply leads_end; [|apply H5].
  unfold sstep. rewrite H1. destruct (d_nodes (s_d s')) as [|n up]; [contradiction|]. destruct (s_x s') as [|x xs]; [contradiction|].
  unfold advance_buffer. rewrite H2. cbn [N.eqb bind]. unfold with_d. destruct s'. reflexivity.
Qed.


Lemma uses_up ns : forall xs ms ys, uses (ns ++ ms) (xs ++ ys) -> length ns = length xs -> uses ms ys.
Proof. induction ns as [|n ns IH]; intros [|x xs] ms ys H L; try discriminate; [exact H|]. cbn in H, L. eapply IH; [apply H|congruence]. Qed.

(** It works, unless the path leads on from a current node that isn't known well enough. *)
Theorem seek_path_any s path : knows env ev b T s -> uses (tl (d_nodes (s_d s))) (tl (s_x s)) ->
  (tl (d_nodes (s_d s)) = [] -> uses (d_nodes (s_d s)) (s_x s)) ->
  (seek_path hash s path = Err EUNATCH /\ ~ uses (d_nodes (s_d s)) (s_x s) /\ exists c cs, names_of path = path_of (d_nodes (s_d s)) ++ c :: cs) \/
  exists s', seek_path hash s path = Ok s' /\ forall pos, leads env hash b (QQ env ev b T (names_of path)) s' pos.
Proof.
  intros [K1 K2 K3 K4] KU KL. unfold seek_path, seek_path_internal. rewrite K3, app_nil_r.
  destruct (rev (combine (d_nodes (s_d s)) (s_x s))) as [|[n0 x0] rest] eqn:R.
  { exfalso. unfold root_ok in K2. destruct (d_nodes (s_d s)) as [|n ns]; [contradiction|]. destruct (s_x s) as [|x xs]; [destruct (rev (n :: ns)); contradiction|]. cbn [combine rev] in R. destruct (rev (combine ns xs)); discriminate. }
  pose proof (stack_len _ _ _ _ _ K1) as SL. assert (SL' : length (d_nodes (s_d s)) = length (s_x s)) by (unfold len in SL; lia).
  destruct (combine_fst _ _ SL') as [F1 F2].
  assert (R' : combine (d_nodes (s_d s)) (s_x s) = rev rest ++ [(n0, x0)]) by (rewrite <- (rev_involutive (combine _ _)), R; reflexivity).
  assert (D1 : d_nodes (s_d s) = map fst (rev rest) ++ [n0]) by (rewrite <- F1, R', map_app; reflexivity).
  assert (D2 : s_x s = map snd (rev rest) ++ [x0]) by (rewrite <- F2, R', map_app; reflexivity).
  pose proof K2 as K2'. unfold root_ok in K2'. rewrite D1, D2, !rev_app_distr in K2'. cbn [rev app] in K2'. destruct K2' as (M & O & E).
  destruct (N.eqb_spec (x_end x0) UINT64_MAX) as [Z | Z]; [exfalso; clear - Z E Hlen; lia|].
  destruct (N.eqb_spec (node_mode n0) MODE_NONE) as [Z' | Z']; [rewrite Z' in M; discriminate|]. rewrite M. cbn [negb].
  destruct (walk (skip_slashes path) [(n0, x0)] rest) as [p st] eqn:W.
  destruct (walk_inv _ _ _ _ _ W ltac:(discriminate) Z) as (done & rest' & E1 & E2 & E3 & E4).
  cbn [map fst] in E3. change (path_of [n0]) with (@nil (list N)) in E3. cbn [app] in E3. rewrite names_skip in E3.
  destruct st as [|[n x] st]; [destruct (rev done); discriminate|].
  set (s1 := mkSdec _ _ _ _ _ _ _ _ _ _).
  assert (A1 : d_nodes (s_d s) = map fst (rev rest') ++ n :: map fst st).
  { rewrite D1, E1, rev_app_distr, map_app, <- app_assoc. f_equal. change (n :: map fst st) with (map fst ((n, x) :: st)). rewrite E2, map_app. reflexivity. }
  assert (A2 : s_x s = map snd (rev rest') ++ x :: map snd st).
  { rewrite D2, E1, rev_app_distr, map_app, <- app_assoc. f_equal. change (x :: map snd st) with (map snd ((n, x) :: st)). rewrite E2, map_app. reflexivity. }
  assert (UB : uses (map fst st) (map snd st) /\ (rev rest' = [] \/ usable n x)).
  { rewrite A1, A2 in KU. destruct (rev rest') as [|[n1 x1] rr]; [cbn [map app tl] in KU; auto|]. cbn [map app tl] in KU.
    apply uses_up in KU; [|rewrite !map_length; reflexivity]. split; [apply KU|right; apply KU]. }
  destruct UB as [UB1 UB2].
  assert (K : sk env ev b T (names_of path) s1 n (map fst st) x (map snd st) p).
  { rewrite A1, A2 in K1, K2. constructor; try reflexivity; try assumption.
    - eapply stack_up; [exact K1|]. rewrite !map_length. reflexivity.
    - eapply root_up. exact K2.
    - intros U. destruct UB2 as [RR | UB2]; [|exact UB2]. rewrite A1, A2, RR in KL. cbn [map app tl] in KL. apply (KL U). }
  assert (G : okseek env ev b (QQ env ev b T (names_of path)) s1 \/ do_seek hash s1 = Err EUNATCH /\ ~ usable n x /\ names_of p <> []).
  { destruct (names_of p) as [|c cs] eqn:Nm; [left; eapply stage_here; eassumption|].
    assert (UN : (usable n x) \/ ~ usable n x /\ node_mode n = MODE_NONE \/ ~ usable n x /\ (S_ISDIR (node_mode n) = true /\ node_mode n <> MODE_NONE /\ x_gb x <> None /\ x_gboff x = UINT64_MAX)).
    { destruct (N.eq_dec (node_mode n) MODE_NONE) as [|U1]; [right; left; split; [intros (U & _); contradiction|assumption]|]. destruct (S_ISDIR (node_mode n)) eqn:SD.
      2:{ left. split; [exact U1|]. split; [intros; congruence|]. auto. }
      destruct (x_gb x) eqn:GB; [|left; split; [exact U1|]; split; [intros _ X; congruence|auto]].
      destruct (N.eq_dec (x_gboff x) UINT64_MAX) as [Y | Y]; [|left; split; [exact U1|]; split; [auto|intros; congruence]].
      right. right. split; [intros (_ & U & _); apply U; [exact SD|congruence|exact Y]|]. split; [reflexivity|]. split; [exact U1|]. split; [discriminate|exact Y]. }
    assert (DS : forall e, (dn_entry_offset n =? UINT64_MAX) = e -> do_seek hash s1 = Err EUNATCH \/ e = false).
    { intros [|] Ee; [left|right; reflexivity]. unfold do_seek. cbn [s1 s_d set_nodes d_nodes s_x map fst snd s_sub]. rewrite Ee. reflexivity. }
    destruct UN as [UN | [[UU UN] | (UU & U0 & U1 & U2 & U3)]].
    - left. eapply seek_below with (k := S (length (names_of p))); try eassumption; try reflexivity; [rewrite Nm; cbn; lia|right; exact UN].
    - right. split; [|split; [exact UU|discriminate]]. destruct (DS _ eq_refl) as [F | F]; [exact F|]. unfold do_seek. cbn [s1 s_d set_nodes d_nodes s_x map fst snd s_sub]. rewrite F.
      destruct (get_component p) as [[c'|] q] eqn:C; [|apply component_none in C; destruct C as [C _]; congruence]. cbn [fst]. rewrite UN. reflexivity.
    - right. split; [|split; [exact UU|discriminate]]. destruct (DS _ eq_refl) as [F | F]; [exact F|]. unfold do_seek. cbn [s1 s_d set_nodes d_nodes s_x map fst snd s_sub]. rewrite F.
      destruct (get_component p) as [[c'|] q] eqn:C; [|apply component_none in C; destruct C as [C _]; congruence]. cbn [fst].
      destruct (N.eqb_spec (node_mode n) MODE_NONE) as [|_]; [contradiction|]. rewrite U0. cbn [negb].
      destruct (x_gb x); [|congruence]. rewrite U3. reflexivity. }
  destruct G as [G | (G & UN & NE)].
  2:{ left. split; [rewrite G; reflexivity|]. destruct UB2 as [RR | UB2]; [|contradiction]. rewrite A1, A2, RR. cbn [map app]. split; [intros [U _]; contradiction|].
      cbn [map fst] in E3. rewrite <- E3. destruct (names_of p) as [|c cs]; [contradiction|]. eauto. }
  right.
  destruct (seek_goes _ _ 0 G) as (s' & S1 & _). exists s'. split; [exact S1|]. intros pos. destruct (seek_goes _ _ pos G) as (s'' & S2 & L). rewrite S1 in S2. injection S2 as ->. exact L.
Qed.

Lemma leads_mono (Q R : sret -> sdec -> N -> Prop) s pos : (forall r s pos, Q r s pos -> R r s pos) -> leads env hash b Q s pos -> leads env hash b R s pos.
Proof.
  intros H L. induction L.
  - eapply leads_end; [eassumption|]. apply H. assumption.
  - eapply leads_step; eassumption.
  - eapply leads_seek; eassumption.
  - eapply leads_request; eassumption.
Qed.

Theorem seeks_any paths : forall last s, knows env ev b T s -> uses (tl (d_nodes (s_d s))) (tl (s_x s)) ->
  (tl (d_nodes (s_d s)) = [] \/ last = None -> uses (d_nodes (s_d s)) (s_x s)) ->
  (forall l, last = Some l -> path_of (d_nodes (s_d s)) = l) -> seeks env hash b T paths last s.
Proof.
  induction paths as [|p paths IH]; intros last s K U1 U2 HL; [exact I|]. cbn [seeks].
  destruct (seek_path_any s p K U1 ltac:(auto)) as [(E & NU & c & cs & Hp) | (s' & E & L)].
  - right. split; [exact E|]. destruct last as [l|]; [|exfalso; apply NU; auto]. exists l, c, cs. split; [reflexivity|]. rewrite (HL l eq_refl) in Hp. split; [|exact Hp].
    intros ->. apply NU, U2. left. pose proof (HL _ eq_refl) as P0. destruct (d_nodes (s_d s)) as [|n [|n2 up]]; try reflexivity. exfalso.
    rewrite path_of_cons in P0. destruct (path_of (n2 :: up)); discriminate.
  - left. exists s'. split; [exact E|]. intros pos. eapply leads_mono; [|apply L]. intros r s2 pos2 (R & K2 & [L1 L2 L3]). split; [exact R|].
    apply IH; [exact K2|exact L1| |].
    + intros [Z | Z]; [auto|]. destruct R as [[-> _] | [-> _]]; [discriminate|auto].
    + intros l Z. destruct R as [[-> _] | [-> _]]; [injection Z as <-; auto|discriminate].
Qed.

(** A decoder that has just been made. *)
Lemma fresh_knows mode s : S_ISDIR mode = true -> sdec_new mode = Ok s -> arch ev T b -> ff_ok env ff UINT64_MAX ->
  knows env ev b T (set_archive_size s (len b)) /\ uses (d_nodes (s_d (set_archive_size s (len b)))) (s_x (set_archive_size s (len b))) /\
  tl (d_nodes (s_d (set_archive_size s (len b)))) = [].
Proof.
  intros Hm H A F. unfold sdec_new, decoder_new in H. rewrite Hm, andb_false_r in H. cbn [andb bind] in H. injection H as <-.
  unfold set_archive_size, with_x. cbn [s_x rev app s_d s_st s_down s_sub s_sib s_idx s_off s_end s_pay d_nodes tl set_root_end x_gboff x_gb x_pay].
  assert (NR : (S_ISREG mode || S_ISBLK mode)%bool = false).
  { unfold S_ISDIR, is_type in Hm. apply N.eqb_eq in Hm. unfold S_ISREG, S_ISBLK, is_type. rewrite Hm. reflexivity. }
  rewrite NR.
  set (n := mkDnode [] 0 None mode). split; [|split; [|reflexivity]].
  - constructor; cbn [s_d d_nodes s_x s_down d_ff]; [|split; [exact Hm|auto]|reflexivity|exact F].
    split; [|exact I]. exists T, [], b, []. constructor; try assumption; try reflexivity.
    + apply at_here.
    + cbn [app]. rewrite app_nil_r. reflexivity.
    + destruct T; try exact I. discriminate.
    + right. reflexivity.
    + right. split; [reflexivity|]. right. auto.
    + left. reflexivity.
    + apply (dir_ok_fresh ev). exact A.
  - split; [|exact I]. split; [apply dir_not_none; exact Hm|]. cbn [x_gb x_gboff x_end]. split; [intros _ X; destruct (X eq_refl)|]. intros _. right. change (len b <> UINT64_MAX). clear - Hlen. lia.
Qed.
End Any.

(** Names are distinct. *)
Lemma stores_distinct ev : forall path f t, stores ev path f t -> forall p m ents, at_path t p (TDir m ents) -> NoDup (map fst ents).
Proof.
  fix IH 4. intros path f t S. destruct S as [| | | | |path s ents m kept l V M K Asc F2]; intros p m' ents' A; try (inversion A; fail).
  - inversion A; subst; [constructor|contradiction].
  - inversion A as [|? ? nm t' p' ? Hin A']; subst.
    + assert (E : map fst ents' = map fst kept). { clear - F2. induction F2 as [|x y l1 l2 [E _] _ IHF]; [reflexivity|]. cbn. congruence. }
      rewrite E. clear - Asc. induction Asc as [|x l _ IHa Fa]; [constructor|]. cbn. constructor; [|exact IHa]. intros Hin. apply in_map_iff in Hin. destruct Hin as (y & Ey & Hy).
      rewrite Forall_forall in Fa. specialize (Fa y Hy). unfold str_lt in Fa. rewrite Ey, strcmp_refl in Fa. discriminate.
    + clear A K Asc. revert nm t' Hin A'. induction F2 as [|x y l1 l2 [_ Sx] F2' IHF]; intros nm t' Hin A'; [contradiction|]. destruct Hin as [Hin | Hin].
      * eapply (IH _ _ _ Sx). rewrite Hin. exact A'.
      * exact (IHF nm t' Hin A').
Qed.
