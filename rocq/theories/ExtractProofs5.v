(** Whatever is fed, extraction stays within its bounds. *)
From Coq Require Import Permutation.
From Verif Require Import Base FeatureFlags ArchiveBase Decoder DecoderSpec DecoderProofs2 DecoderProofs3 DecoderProofs4 DecoderProofs5 DecoderProofs8 Fs Extract ExtractSpec ExtractProofs1 ExtractProofs2 ExtractProofs3
  ExtractProofs4.
Local Open Scope N_scope.

Definition solid (n : dnode) : Prop := (forall e, dn_entry n = Some e -> entry_shape e) /\ (S_ISREG (dn_mode n) || S_ISBLK (dn_mode n))%bool = false.
Lemma solid_none name off : solid (mkDnode name off None MODE_NONE).
Proof. split; [discriminate|reflexivity]. Qed.
Lemma not_naked d : Forall solid (d_nodes d) -> is_naked d = false.
Proof.
  intros H. unfold is_naked. destruct (d_nodes d) as [|n [|]]; try reflexivity. inversion H as [|? ? [_ H1] _]; subst. rewrite H1. apply andb_false_r.
Qed.

Lemma step_payload_shape d n r d' : is_naked d = false -> step_payload d n = Ok (r, d') ->
  d_nodes d' = d_nodes d /\ d_ff d' = d_ff d /\ d_bound d' = d_bound d /\ (d_state d' = d_state d \/ d_state d' = D_FINALIZE).
Proof.
  intros Hn. unfold step_payload. rewrite Hn.
  repeat match goal with |- (if ?c then _ else _) = _ -> _ => destruct c | |- match ?c with _ => _ end = _ -> _ => destruct c end; intros H; try discriminate; injection H as <- <-; cbn; auto.
Qed.
Lemma step_filename_shape d n r d' : step_filename d n = Ok (r, d') ->
  d_bound d' = d_bound d /\ d_ff d' = d_ff d /\
  ((d_nodes d' = d_nodes d /\ (d_state d' = d_state d \/ d_state d' = D_GOODBYE)) \/
   (exists name off, d_nodes d' = mkDnode name off None MODE_NONE :: d_nodes d /\ d_state d' = D_ENTERED)).
Proof.
  unfold step_filename. destruct (parse_filename (d_buf d)); intros H; try discriminate.
  - injection H as <- <-. auto 6.
  - destruct (_ <=? _); [discriminate|]. injection H as <- <-. cbn. split; [reflexivity|]. split; [reflexivity|]. right. eauto.
  - destruct (_ && _ && _)%bool; [discriminate|]. injection H as <- <-. cbn. auto 7.
Qed.
Lemma step_entry_shape env d n up r d' : step_entry env d n up = Ok (r, d') ->
  d_bound d' = d_bound d /\
  ((d_nodes d' = mkDnode (dn_name n) (dn_entry_offset n) None MODE_NONE :: up /\ d_state d' = d_state d) \/
   (exists e, entry_shape e /\ d_nodes d' = mkDnode (dn_name n) (dn_entry_offset n) (Some e) MODE_NONE :: up /\ d_state d' = D_ENTRY)).
Proof.
  unfold step_entry. destruct (parse_entry _ _ _ _) as [[|e|e o] ff] eqn:P; intros H; try discriminate; injection H as <- <-; cbn; (split; [reflexivity|]).
  - left. auto.
  - right. exists e. split; [eapply parse_entry_shape; exact P|auto].
Qed.

Section Extraction.
Variables (env : denv) (fe : fenv) (cfg : xcfg) (w0 : fs) (b : N).
Hypothesis Hfe : sound_env fe.
Hypothesis Hw0 : sound_fs w0.
Notation undo := (c_undo cfg).
Notation okw := (okw undo w0 b).
Notation odir := (odir w0 b).
Notation ok := (ok fe cfg w0 b).
Notation made := (made w0 b).

Fixpoint parents (w : fs) (cs : list xnode) : Prop :=
  match cs with
  | [] => True
  | c :: up => (exists i, x_fd c = Some i /\ odir w i) /\ (forall t, x_tmp c = Some t -> is_component t /\ up <> []) /\ parents w up
  end.
Lemma parents_stable w w1 cs : parents w cs -> stable w w1 -> parents w1 cs.
Proof.
  induction cs as [|c up IH]; cbn; [auto|]. intros ((i & H1 & H2) & H3 & H4) S. split; [exists i; split; [exact H1|eapply odir_stable; eassumption]|]. auto.
Qed.
Definition above (cs : list xnode) : option N := match cs with p :: _ => x_fd p | [] => None end.

Definition top_ok (d : dec) (w : fs) (M : option N) (n : dnode) (c : xnode) (up : list xnode) : Prop :=
  match d_state d with
  | D_INIT => M = None /\ up = [] /\ parents w [c]
  | D_ENTERED => M = None /\ up <> [] /\ x_fd c = None /\ x_tmp c = None
  | D_ENTRY => M = None /\ ((up = [] /\ parents w [c]) \/ (up <> [] /\ x_fd c = None /\ x_tmp c = None))
  | D_IN_DIRECTORY | D_GOODBYE => M = None /\ parents w (c :: up)
  | D_IN_PAYLOAD => exists e i, dn_entry n = Some e /\ up <> [] /\ x_fd c = Some i /\ M = Some i /\ made w M (above up) (replay_of env d) c (m_mode (dt_meta e))
  | D_FINALIZE => exists e, dn_entry n = Some e /\ made w M (above up) (replay_of env d) c (m_mode (dt_meta e)) /\ (up = [] -> x_tmp c = None /\ x_fd c <> None)
  | D_EOF => True
  end.
Record XI (x : xdec) (w : fs) (M : option N) : Prop := mkXI {
  X_inv : Inv (x_dec x);
  X_bound : d_bound (x_dec x) = 0;
  X_solid : Forall solid (d_nodes (x_dec x));
  X_len : length (x_nodes x) = length (d_nodes (x_dec x));
  X_top : match d_nodes (x_dec x), x_nodes x with
          | n :: _, c :: up => parents w up /\ top_ok (x_dec x) w M n c up
          | _, _ => False
          end
}.

Lemma XI_start x mode : xdec_new mode b = Ok x -> S_ISDIR mode = true -> directory w0 b -> XI x w0 None.
Proof.
  intros H Hm Hb. unfold xdec_new in H. destruct (decoder_new mode) as [d| | |] eqn:E; try discriminate. cbn in H. injection H as <-.
  pose proof (Inv_new _ _ E) as HI. unfold decoder_new in E. destruct (_ && _ && _)%bool; [discriminate|]. injection E as <-.
  constructor; cbn; auto.
  - constructor; [|constructor]. split; [discriminate|]. cbn.
    unfold S_ISREG, S_ISBLK. rewrite (type_excl mode S_IFDIR S_IFREG), (type_excl mode S_IFDIR S_IFBLK); auto; discriminate.
  - split; [exact I|]. split; [reflexivity|]. split; [reflexivity|]. split; [|split; [discriminate|exact I]]. exists b. split; [reflexivity|].
    split; [left; constructor|exact Hb].
Qed.

Lemma top_same d d' w M n c up : d_state d' = d_state d -> d_ff d' = d_ff d -> top_ok d w M n c up -> top_ok d' w M n c up.
Proof. intros E1 E2. unfold top_ok, replay_of. rewrite E1, E2. auto. Qed.
Lemma XI_same d d' xs w M : Inv d' -> d_state d' = d_state d -> d_ff d' = d_ff d -> d_nodes d' = d_nodes d -> d_bound d' = d_bound d ->
  XI (mkXdec d xs) w M -> XI (mkXdec d' xs) w M.
Proof.
  intros HI E1 E2 E3 E4 [H1 H2 H3 H4 H5]. cbn [x_dec x_nodes] in *. constructor; cbn [x_dec x_nodes]; rewrite ?E3, ?E4; auto.
  destruct (d_nodes d); [exact H5|]. destruct xs; [exact H5|]. destruct H5 as [H5 H6]. split; [exact H5|]. eapply top_same; eassumption.
Qed.
Lemma XI_put x p x' w M : xput x p = Ok x' -> XI x w M -> XI x' w M.
Proof.
  intros H HX. unfold xput in H. destruct (decoder_put_data (x_dec x) p) as [d| | |] eqn:E; try discriminate. injection H as <-.
  pose proof (proj1 (put_Inv _ _ _ (X_inv _ _ _ HX) E)) as HI. destruct x as [d0 xs]. cbn [x_dec x_nodes] in *.
  unfold decoder_put_data in E. destruct (len p =? 0); [injection E as <-; exact HX|].
  destruct (d_eof _); [discriminate|]. injection E as <-. revert HX. apply XI_same; auto.
Qed.
Lemma XI_eof x w M : XI x w M -> XI (xput_eof x) w M.
Proof.
  intros HX. assert (HI : Inv (decoder_put_eof (x_dec x))) by (destruct (X_inv _ _ _ HX); constructor; auto). destruct x as [d0 xs].
  unfold xput_eof. cbn [x_dec x_nodes] in *. revert HX. apply XI_same; auto.
Qed.

Lemma ok_write_all fuel : forall i p w, okw w (Some i) -> ok (write_all fuel i p) w (Some i) (still (Some i)).
Proof.
  induction fuel as [|fuel IH]; intros i p w K; destruct p as [|a p]; cbn [write_all]; try reflexivity.
  eapply ok_bind; [exact K|apply ok_sysnum; [exact Hw0|exact K|reflexivity]|]. intros r w1 M1 K1 S1 ->. destruct r as [n| | |]; try reflexivity.
  destruct (_ <? n); [reflexivity|]. apply IH, K1.
Qed.

Definition goes_on (r : res (dret * xdec)) (w1 : fs) (M1 : option N) : Prop := match r with Ok (_, x') => XI x' w1 M1 | _ => True end.

Lemma above_dir w up : parents w up -> up <> [] -> exists i, above up = Some i /\ odir w i.
Proof. destruct up as [|p up]; [congruence|]. intros (H & _) _. exact H. Qed.

Lemma made_parent w c up mode replay : parents w (c :: up) -> made w None (above up) replay c mode.
Proof.
  intros ((i & H1 & H2) & H3 & H4). split; [|left; exists i; auto]. intros t Ht. destruct (H3 t Ht) as [A B]. split; [exact A|].
  destruct (above_dir _ _ H4 B) as (j & -> & _). discriminate.
Qed.

Lemma decoder_part x xs w M n c up dup : d_nodes (x_dec x) = n :: dup -> xs = c :: up -> length (x_nodes x) = length xs ->
  XI x w M \/ True -> Inv (x_dec x) -> d_bound (x_dec x) = 0 -> Forall solid (d_nodes (x_dec x)) -> length xs = length (d_nodes (x_dec x)) ->
  parents w up ->
  match d_state (x_dec x) with
  | D_INIT | D_ENTERED | D_IN_DIRECTORY | D_GOODBYE | D_IN_PAYLOAD | D_EOF => top_ok (x_dec x) w M n c up
  | D_ENTRY => exists e, dn_entry n = Some e /\ made w M (above up) (replay_of env (x_dec x)) c (m_mode (dt_meta e)) /\
                 (S_ISDIR (m_mode (dt_meta e)) = true -> M = None /\ parents w (c :: up)) /\
                 (S_ISREG (m_mode (dt_meta e)) = true -> up <> [] /\ exists i, x_fd c = Some i /\ M = Some i) /\
                 (up = [] -> x_tmp c = None /\ x_fd c <> None)
  | D_FINALIZE => M = None
  end ->
  match decoder_step env (x_dec x) with
  | Ok (r, d') => XI (mkXdec d' (xtrack cfg xs (x_dec x) d')) w M
  | _ => True
  end.
Proof.
  intros Hn Hxs _ _ HI Hb Hs Hl Hp Ht. set (d := x_dec x) in *.
  destruct (decoder_step env d) as [[r d']| | |] eqn:E; try exact I.
  pose proof (Inv_of_step _ _ _ _ HI E) as HI'.
  assert (He : d_state d = D_EOF \/ d_state d <> D_EOF) by (destruct (d_state d); auto; right; discriminate).
  assert (Same : d_nodes d' = d_nodes d -> xtrack cfg xs d d' = xs).
  { intros En. unfold xtrack. rewrite En, N.ltb_irrefl. reflexivity. }
  assert (Len : forall l l' : list dnode, length l = length l' -> len l = len l') by (intros l l' Q; unfold len; rewrite Q; reflexivity).
  assert (Same' : len (d_nodes d') = len (d_nodes d) -> xtrack cfg xs d d' = xs).
  { intros En. unfold xtrack. rewrite En, N.ltb_irrefl. reflexivity. }
  destruct He as [He | He].
  { unfold decoder_step in E. rewrite He in E. injection E as _ <-. rewrite Same by reflexivity. subst xs.
    constructor; cbn; auto. rewrite Hn. split; [exact Hp|]. unfold top_ok. rewrite He. exact I. }
  rewrite decoder_step_adv in E by assumption. rewrite Hn in E.
  assert (Hnk : is_naked (adv d) = false) by (apply not_naked; exact Hs).
  unfold step_node in E. cbn [adv d_state] in E. fold (adv d) in E.
  assert (RO : forall d1 d2, d_ff d1 = d_ff d2 -> replay_of env d1 = replay_of env d2) by (intros d1 d2 Q; unfold replay_of; rewrite Q; reflexivity).
  destruct (d_state d) eqn:Es; try congruence.
  - (* INIT *)
    rewrite Hnk in E. apply step_entry_shape in E. destruct E as [E1 E2]. unfold top_ok in Ht. rewrite Es in Ht. destruct Ht as (-> & -> & Hc).
    destruct E2 as [[E2 E3] | (e & E0 & E2 & E3)]; cbn [adv d_state d_bound] in *.
    + rewrite Same' by (rewrite E2, Hn; reflexivity). subst xs. constructor; cbn; auto; [congruence| | |].
      * rewrite E2. rewrite Hn in Hs. inversion Hs; subst. constructor; [apply solid_none|assumption].
      * rewrite E2. rewrite Hn in Hl. exact Hl.
      * rewrite E2. split; [exact I|]. unfold top_ok. rewrite E3, Es. auto.
    + rewrite Same' by (rewrite E2, Hn; reflexivity). subst xs. constructor; cbn; auto; [congruence| | |].
      * rewrite E2. rewrite Hn in Hs. inversion Hs; subst. constructor; [|assumption]. split; [|reflexivity]. cbn. intros e1 Q. injection Q as <-. exact E0.
      * rewrite E2. rewrite Hn in Hl. exact Hl.
      * rewrite E2. split; [exact I|]. unfold top_ok. rewrite E3. auto.
  - (* ENTERED *)
    apply step_entry_shape in E. destruct E as [E1 E2]. unfold top_ok in Ht. rewrite Es in Ht. destruct Ht as (-> & Hu & Hc1 & Hc2).
    destruct E2 as [[E2 E3] | (e & E0 & E2 & E3)]; cbn [adv d_state d_bound] in *.
    + rewrite Same' by (rewrite E2, Hn; reflexivity). subst xs. constructor; cbn; auto; [congruence| | |].
      * rewrite E2. rewrite Hn in Hs. inversion Hs; subst. constructor; [apply solid_none|assumption].
      * rewrite E2. rewrite Hn in Hl. exact Hl.
      * rewrite E2. split; [exact Hp|]. unfold top_ok. rewrite E3, Es. auto.
    + rewrite Same' by (rewrite E2, Hn; reflexivity). subst xs. constructor; cbn; auto; [congruence| | |].
      * rewrite E2. rewrite Hn in Hs. inversion Hs; subst. constructor; [|assumption]. split; [|reflexivity]. cbn. intros e1 Q. injection Q as <-. exact E0.
      * rewrite E2. rewrite Hn in Hl. exact Hl.
      * rewrite E2. split; [exact Hp|]. unfold top_ok. rewrite E3. auto.
  - (* ENTRY *)
    destruct Ht as (e & He1 & Hm & Hdir & Hreg & Hroot). unfold node_mode in E. rewrite He1 in E.
    destruct (_ =? MODE_NONE); [discriminate|].
    destruct (S_ISREG (m_mode (dt_meta e))) eqn:Tr.
    + apply step_payload_shape in E; [|exact Hnk]. destruct E as (E1 & E2 & E3 & E4). cbn [enter adv d_nodes d_ff d_bound d_state] in *.
      rewrite Same by congruence. subst xs. constructor; cbn; auto; [congruence|rewrite E1; exact Hs|rewrite E1; exact Hl|]. rewrite E1, Hn. split; [exact Hp|].
      destruct (Hreg eq_refl) as (Hu & i & Hi & HM). unfold top_ok. destruct E4 as [-> | ->]; rewrite (RO d' d) by congruence.
      * exists e, i. repeat (split; [assumption|]). exact Hm.
      * exists e. split; [exact He1|split; [exact Hm|exact Hroot]].
    + destruct (S_ISDIR (m_mode (dt_meta e))) eqn:Td.
      * apply step_filename_shape in E. destruct E as (E1 & E2 & E3). cbn [enter adv d_nodes d_ff d_bound d_state] in *. destruct (Hdir eq_refl) as [-> Hpc].
        destruct E3 as [[E3 E4] | (name & off & E3 & E4)].
        -- rewrite Same by congruence. subst xs. constructor; cbn; auto; [congruence|rewrite E3; exact Hs|rewrite E3; exact Hl|]. rewrite E3, Hn. split; [exact Hp|].
           unfold top_ok. destruct E4 as [-> | ->]; auto.
        -- assert (Tk : xtrack cfg xs d d' = xnode0 :: mkXnode (x_fd c) (x_tmp c) (if c_delete cfg then x_dirents c ++ [name] else x_dirents c) :: up).
           { unfold xtrack. rewrite E3. subst xs. destruct (N.ltb_spec (len (d_nodes d)) (len (mkDnode name off None MODE_NONE :: d_nodes d))) as [Q|Q]; [reflexivity|rewrite len_cons in Q; lia]. }
           rewrite Tk. constructor; cbn; auto; [congruence| | |].
           ++ rewrite E3. constructor; [apply solid_none|exact Hs].
           ++ rewrite E3, Hn. subst xs. rewrite Hn in Hl. cbn in *. congruence.
           ++ rewrite E3. split; [exact Hpc|]. unfold top_ok. rewrite E4. cbn. repeat split; try discriminate.
      * injection E as _ <-. cbn [enter adv d_nodes]. rewrite Same by reflexivity. subst xs. constructor; cbn; auto. rewrite Hn. split; [exact Hp|].
        unfold top_ok. cbn [enter d_state]. rewrite (RO (enter (adv d) D_FINALIZE 0) d) by reflexivity. exists e. split; [exact He1|split; [exact Hm|exact Hroot]].
  - (* IN_PAYLOAD *)
    apply step_payload_shape in E; [|exact Hnk]. destruct E as (E1 & E2 & E3 & E4). cbn [adv d_nodes d_ff d_bound d_state] in *.
    unfold top_ok in Ht. rewrite Es in Ht. destruct Ht as (e & i & He1 & Hu & Hi & HM & Hm).
    rewrite Same by congruence. subst xs. constructor; cbn; auto; [congruence|rewrite E1; exact Hs|rewrite E1; exact Hl|]. rewrite E1, Hn. split; [exact Hp|].
    unfold top_ok. destruct E4 as [-> | ->]; rewrite ?Es, (RO d' d) by congruence.
    + exists e, i. repeat (split; [assumption|]). exact Hm.
    + exists e. split; [exact He1|]. split; [exact Hm|]. intros Q. contradiction.
  - (* IN_DIRECTORY *)
    destruct (_ =? MODE_NONE); [discriminate|]. destruct (negb _); [discriminate|].
    unfold top_ok in Ht. rewrite Es in Ht. destruct Ht as [-> Hpc].
    apply step_filename_shape in E. destruct E as (E1 & E2 & E3). cbn [adv d_nodes d_ff d_bound d_state] in *.
    destruct E3 as [[E3 E4] | (name & off & E3 & E4)].
    + rewrite Same by congruence. subst xs. constructor; cbn; auto; [congruence|rewrite E3; exact Hs|rewrite E3; exact Hl|]. rewrite E3, Hn. split; [exact Hp|].
      unfold top_ok. destruct E4 as [-> | ->]; rewrite ?Es; auto.
    + assert (Tk : xtrack cfg xs d d' = xnode0 :: mkXnode (x_fd c) (x_tmp c) (if c_delete cfg then x_dirents c ++ [name] else x_dirents c) :: up).
      { unfold xtrack. rewrite E3. subst xs. destruct (N.ltb_spec (len (d_nodes d)) (len (mkDnode name off None MODE_NONE :: d_nodes d))) as [Q|Q]; [reflexivity|rewrite len_cons in Q; lia]. }
      rewrite Tk. constructor; cbn; auto; [congruence| | |].
      * rewrite E3. constructor; [apply solid_none|exact Hs].
      * rewrite E3, Hn. subst xs. rewrite Hn in Hl. cbn in *. congruence.
      * rewrite E3. split; [exact Hpc|]. unfold top_ok. rewrite E4. cbn. repeat split; try discriminate.
  - (* GOODBYE *)
    destruct (_ =? MODE_NONE); [discriminate|]. destruct (negb _); [discriminate|].
    injection E as _ <-. cbn [enter adv d_nodes]. rewrite Same by reflexivity. subst xs. constructor; cbn; auto. rewrite Hn. split; [exact Hp|].
    unfold top_ok in *. rewrite Es in Ht. destruct Ht as [-> Hpc]. cbn.
    assert (Hh := I_head _ HI). unfold head_ok in Hh. rewrite Hn, Es in Hh. destruct Hh as (e & He1 & _). exists e. split; [exact He1|].
    split; [apply made_parent, Hpc|]. intros ->. destruct Hpc as ((i & Hi & _) & Htm & _). rewrite Hi. split; [|discriminate].
    destruct (x_tmp c) as [t|]; [|reflexivity]. destruct (Htm t eq_refl). congruence.
  - (* FINALIZE *)
    subst M. cbn [adv d_bound] in E. destruct (N.leb_spec (len dup) (d_bound d)) as [Q | Q].
    + injection E as _ <-. cbn [enter adv d_nodes]. rewrite Same by reflexivity. subst xs. constructor; cbn; auto. rewrite Hn. split; [exact Hp|].
      unfold top_ok. exact I.
    + injection E as _ <-. assert (Tk : xtrack cfg xs d (enter (set_nodes (adv d) dup) D_IN_DIRECTORY 0) = up).
      { unfold xtrack. cbn [enter set_nodes d_nodes]. rewrite Hn, len_cons.
        destruct (N.ltb_spec (1 + len dup) (len dup)); [lia|]. destruct (N.ltb_spec (len dup) (1 + len dup)); [|lia]. subst xs. reflexivity. }
      rewrite Tk. rewrite Hn in Hs, Hl. subst xs. cbn in Hl. destruct dup as [|n2 dup]; [change (@len dnode []) with 0 in Q; lia|].
      constructor; cbn; auto; [inversion Hs; assumption|]. destruct up as [|c2 up]; [discriminate|]. split; [apply Hp|]. unfold top_ok. cbn. auto.
Qed.

Theorem ok_xstep x w M : okw w M -> XI x w M -> ok (xstep env cfg x) w M goes_on.
Proof.
  intros K [HI Hb Hs Hl Ht]. set (d := x_dec x) in *.
  destruct (d_nodes d) as [|n dup] eqn:En; [contradiction|]. destruct (x_nodes x) as [|c up] eqn:Ex; [contradiction|]. destruct Ht as [Hp Ht].
  unfold xstep. fold d. rewrite En, Ex.
  assert (WP : ok (write_payload x) w M (fun r w1 M1 => M1 = M /\ (d_state d = D_FINALIZE -> w1 = w))).
  { unfold write_payload. fold d. destruct (d_state d) eqn:Es; try (split; auto; fail). rewrite Ex. destruct (x_fd c) as [i|] eqn:Ec; [|split; auto; discriminate].
    unfold top_ok in Ht. rewrite Es in Ht. destruct Ht as (e & j & _ & _ & Hj & -> & _). assert (j = i) by congruence. subst j.
    eapply ok_weaken; [apply ok_write_all, K|]. intros r w1 M1 ->. split; [reflexivity|discriminate]. }
  eapply ok_bind; [exact K|exact WP|]. cbn beta. intros r w1 M1 K1 S1 [-> Hfin]. destruct r; try exact I. clear WP.
  assert (Hlen : length up = length dup) by (cbn in Hl; congruence).
  assert (Hsn : solid n) by (inversion Hs; assumption).
  assert (Fin : forall xs w2 M2, xs = c :: up \/ (exists c', xs = c' :: up) -> okw w2 M2 -> stable w w2 ->
     match d_state d with
     | D_INIT | D_ENTERED | D_IN_DIRECTORY | D_GOODBYE | D_IN_PAYLOAD | D_EOF => exists c', xs = c' :: up /\ top_ok d w2 M2 n c' up
     | D_ENTRY => exists c', xs = c' :: up /\ exists e, dn_entry n = Some e /\ made w2 M2 (above up) (replay_of env d) c' (m_mode (dt_meta e)) /\
                 (S_ISDIR (m_mode (dt_meta e)) = true -> M2 = None /\ parents w2 (c' :: up)) /\
                 (S_ISREG (m_mode (dt_meta e)) = true -> up <> [] /\ exists i, x_fd c' = Some i /\ M2 = Some i) /\
                 (up = [] -> x_tmp c' = None /\ x_fd c' <> None)
     | D_FINALIZE => M2 = None
     end ->
     ok (match decoder_step env d with
         | Ok (r, d') => Ret (Ok (r, mkXdec d' (xtrack cfg xs d d')))
         | Err e => Ret (Err e) | Abort => Ret Abort | UB => Ret UB
         end) w2 M2 goes_on).
  { intros xs w2 M2 Hxs K2 S2 H.
    assert (Hc' : exists c', xs = c' :: up) by (destruct Hxs as [-> | ?]; eauto). destruct Hc' as [c0 Hxs0].
    assert (DP : match decoder_step env d with Ok (r, d') => XI (mkXdec d' (xtrack cfg xs d d')) w2 M2 | _ => True end).
    { eapply (decoder_part x xs w2 M2 n c0 up dup); auto; fold d; try congruence.
      - rewrite Ex, Hxs0. reflexivity.
      - rewrite Hxs0, En. cbn. congruence.
      - eapply parents_stable; eassumption.
      - destruct (d_state d); try (destruct H as (c' & Q & H); assert (c' = c0) by congruence; subst c'; exact H). exact H. }
    destruct (decoder_step env d) as [[r d']| | |]; try exact I. exact DP. }
  assert (Stay : d_state d <> D_ENTRY -> d_state d <> D_FINALIZE -> top_ok d w1 M n c up ->
     ok (match decoder_step env d with
         | Ok (r, d') => Ret (Ok (r, mkXdec d' (xtrack cfg (c :: up) d d')))
         | Err e => Ret (Err e) | Abort => Ret Abort | UB => Ret UB
         end) w1 M goes_on).
  { intros N1 N2 T. apply Fin; auto. destruct (d_state d); try congruence; exists c; auto. }
  assert (Made : forall w1 M c replay mode, made w M (above up) replay c mode -> stable w w1 -> (x_fd c <> None) -> made w1 M (above up) replay c mode).
  { clear. intros w1 M c replay mode [H1 H2] S Hx. split; [exact H1|].
    destruct H2 as [(i & A & B & C) | [(i & A & B & C & D & nd & E & F) | [(A & B & C) | (d & t & i & A & B & C)]]]; try congruence.
    - left. exists i. split; [exact A|]. split; [exact B|]. eapply odir_stable; eassumption.
    - right. left. exists i. destruct (proj2 S _ _ E) as (nd1 & E1 & F1). split; [exact A|]. split; [exact B|]. split; [exact C|]. split; [exact D|]. exists nd1. split; [exact E1|congruence]. }
  destruct (d_state d) eqn:Es.
  - apply Stay; try discriminate. unfold top_ok in *. rewrite Es in *. destruct Ht as (A & B & C). split; [exact A|]. split; [exact B|]. exact (parents_stable _ _ _ C S1).
  - apply Stay; try discriminate. unfold top_ok in *. rewrite Es in *. exact Ht.
  - (* ENTRY *)
    unfold top_ok in Ht. rewrite Es in Ht. destruct Ht as [-> Ht].
    assert (Hh := I_head _ HI). fold d in Hh. unfold head_ok in Hh. rewrite En, Es in Hh. destruct Hh as (e & He & Hok1 & Hok2 & Hok3).
    destruct Ht as [[-> Hc] | (Hu & Hc1 & Hc2)].
    + (* root *)
      destruct dup; [|discriminate]. cbn [pbind]. apply Fin; auto. exists c. split; [reflexivity|]. exists e. split; [exact He|].
      assert (Hdm : S_ISDIR (m_mode (dt_meta e)) = true) by (apply Hok3; reflexivity).
      assert (Hc1 : parents w1 [c]) by (eapply parents_stable; eassumption).
      split; [apply made_parent, Hc1|]. split; [auto|]. split; [intros Hr; exfalso; eapply type_neq; [|exact Hdm|exact Hr]; discriminate|].
      intros _. destruct Hc1 as ((i & Hi & _) & Htm & _). rewrite Hi. split; [|discriminate].
      destruct (x_tmp c) as [t|]; [|reflexivity]. destruct (Htm t eq_refl). congruence.
    + destruct up as [|p up]; [congruence|]. rewrite Hc1. pose proof (parents_stable _ _ _ Hp S1) as Hp1. destruct Hp1 as ((i & Hpi & Hpo) & Hpt & Hpp).
      rewrite Hpi, He.
      assert (Hnm : is_component (dn_name n)).
      { pose proof (I_names _ HI) as HN. fold d in HN. rewrite En in HN. destruct dup; [discriminate|]. cbn [removelast] in HN. inversion HN; assumption. }
      eapply ok_bind with (Q1 :=
        (fun r w2 M2 => match r with Ok xs => exists c', xs = c' :: p :: up /\ made_ok w0 b i (replay_of env d) e (Ok c') w2 M2 | _ => True end)); [exact K1| |].
      * eapply ok_bind; [exact K1|apply ok_realize; [exact Hw0|exact K1|apply Hpo|exact Hnm|apply (proj1 Hsn), He|exact Hc1|exact Hc2]|].
        cbn beta. intros r w2 M2 K2 S2 HQ. destruct r as [c'| | |]; [|exact I..]. exists c'. split; [reflexivity|exact HQ].
      * cbn beta. intros r w2 M2 K2 S2 HQ. destruct r as [xs| | |]; try exact I. destruct HQ as (c' & -> & Q1 & Q2 & Q3).
        apply Fin; eauto; [eapply stable_trans; eassumption|]. exists c'. split; [reflexivity|]. exists e. split; [exact He|].
        cbn [above]. rewrite Hpi. split; [exact Q1|]. split; [|split; [|discriminate]].
        -- intros Td. destruct (Q2 Td) as (j & A & B & ->). split; [reflexivity|]. split; [exists j; auto|]. split; [|eapply parents_stable; [exact Hp|eapply stable_trans; eassumption]].
           intros t Htt. destruct (proj1 Q1 t Htt). split; [assumption|discriminate].
        -- intros Tr. split; [discriminate|]. destruct (Q3 Tr) as (j & A & B). exists j. auto.
  - (* IN_PAYLOAD *)
    apply Stay; try discriminate. unfold top_ok in *. rewrite Es in *. destruct Ht as (e & i & A & B & C & D & E). exists e, i. split; [exact A|]. split; [exact B|]. split; [exact C|]. split; [exact D|]. apply Made; [exact E|exact S1|congruence].
  - apply Stay; try discriminate. unfold top_ok in *. rewrite Es in *. destruct Ht as (A & B). split; [exact A|]. exact (parents_stable _ _ _ B S1).
  - apply Stay; try discriminate. unfold top_ok in *. rewrite Es in *. destruct Ht as (A & B). split; [exact A|]. exact (parents_stable _ _ _ B S1).
  - (* FINALIZE *)
    unfold top_ok in Ht. rewrite Es in Ht. destruct Ht as (e & He & Hm & Hroot).
    rewrite (Hfin eq_refl) in *. rewrite He.
    eapply ok_bind with (Q1 := (fun r w2 M2 => match r with Ok xs => xs = c :: up /\ M2 = None | _ => True end)); [exact K1| |].
    + eapply ok_bind; [exact K1|apply ok_finalize; [exact Hfe|exact Hw0|exact K1|exact Hm|apply (proj1 Hsn), He| |]|].
      * intros j Hj. destruct up as [|p up]; [discriminate|]. destruct Hp as ((i & Hpi & Hpo) & _). cbn in Hj. assert (j = i) by congruence. subst j.
        split; [exact Hpo|]. pose proof (I_names _ HI) as HN. fold d in HN. rewrite En in HN. destruct dup; [discriminate|]. cbn [removelast] in HN. inversion HN; assumption.
      * intros Hj. apply Hroot. destruct up as [|p up]; [reflexivity|]. destruct Hp as ((i & Hpi & Hpo) & _). cbn in Hj. congruence.
      * cbn beta. intros r w2 M2 K2 S2 HQ. destruct r as [u| | |]; [|exact I..]. split; [reflexivity|exact HQ].
    + cbn beta. intros r w2 M2 K2 S2 HQ. destruct r as [xs| | |]; try exact I. destruct HQ as [-> ->]. apply Fin; auto.
  - apply Stay; try discriminate. unfold top_ok. rewrite Es. exact I.
Qed.
End Extraction.
