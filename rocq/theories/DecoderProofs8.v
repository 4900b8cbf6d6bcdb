(** Runs that are not finished yet, depth of paths, and blobs. *)
From Verif Require Import Base FeatureFlags ArchiveBase Decoder DecoderSpec DecoderProofs DecoderProofs2 DecoderProofs3
  DecoderProofs4 DecoderProofs5 DecoderProofs6 DecoderProofs7.
Local Open Scope N_scope.

Lemma drun_total_from env d i : Inv d -> (d_eof d = true -> i = []) -> exists o r, drun env d i o r /\ r <> Crashed.
Proof.
  intros HI He.
  destruct (erun_total env (full d i)) as (o & r & R & Hr); [apply Inv_full, HI|].
  exists o, r. split; [|exact Hr].
  apply erun_drun in R; [|apply Inv_full, HI|reflexivity].
  set (d' := mkDec (d_state d) (d_ff d) (d_nodes d) (d_buf d ++ i) (d_eof d) (d_aoff d) (d_poff d) (d_step d) (d_bound d)).
  assert (R' : drun env d' [] o r). { apply drun_eof. exact R. }
  replace i with (i ++ []) by apply app_nil_r.
  eapply drun_put; [|exact R'].
  unfold decoder_put_data. destruct (N.eqb_spec (len i) 0) as [E | E].
  - apply len_zero_nil in E. subst i. unfold d'. rewrite app_nil_r. destruct d; reflexivity.
  - destruct (d_eof d) eqn:X; [rewrite He in E by reflexivity; contradiction|]. reflexivity.
Qed.

Lemma put_Inv d p d' : Inv d -> decoder_put_data d p = Ok d' -> Inv d' /\ (d_eof d' = true -> d_eof d = true).
Proof.
  intros HI. unfold decoder_put_data. destruct (_ =? _); [intros E; injection E as <-; auto|].
  destruct (d_eof d); [discriminate|]. intros E; injection E as <-.
  split; [|auto]. destruct HI; constructor; cbn [d_state d_ff d_nodes d_buf d_eof d_aoff d_poff d_step]; auto. rewrite len_app. lia.
Qed.

Lemma duse_inv env d i o d2 i2 : duse env d i o d2 i2 -> Inv d -> (d_eof d = true -> i = []) ->
  Inv d2 /\ (d_eof d2 = true -> i2 = []) /\ forall o2 r, drun env d2 i2 o2 r -> drun env d i (o ++ o2) r.
Proof.
  induction 1 as [d i|d p i d' o d2 i2 H U IH|d o d2 i2 U IH|d i x d' o d2 i2 H Hx U IH]; intros HI He.
  - auto.
  - destruct (put_Inv _ _ _ HI H) as [HI' He'].
    destruct IH as (A & B & C); [exact HI'|intros X; apply app_eq_nil in He as [_ He]; auto|].
    split; [exact A|]. split; [exact B|]. intros o2 r R. eapply drun_put; eauto.
  - destruct IH as (A & B & C); [destruct HI; constructor; auto|auto|].
    split; [exact A|]. split; [exact B|]. intros o2 r R. apply drun_eof. auto.
  - destruct IH as (A & B & C); [eapply Inv_of_step; eauto|rewrite (step_eof _ _ _ _ HI H); exact He|].
    split; [exact A|]. split; [exact B|]. intros o2 r R. rewrite <- app_assoc. eapply drun_step; eauto.
Qed.

(** However a decoder is used, it can be used up to the end, and what was seen so far fits. *)
Theorem duse_complete env mode d i o d2 i2 : decoder_new mode = Ok d -> duse env d i o d2 i2 ->
  exists o2 r, drun env d2 i2 o2 r /\ drun env d i (o ++ o2) r /\ r <> Crashed.
Proof.
  intros H U. assert (HI := Inv_new _ _ H). assert (He := new_eof _ _ H).
  destruct (duse_inv _ _ _ _ _ _ U HI) as (A & B & C); [congruence|].
  destruct (drun_total_from env d2 i2 A B) as (o2 & r & R & Hr). exists o2, r. auto.
Qed.

(** ** Paths *)
Lemma erun_depth env d o r : erun env d o r -> Inv d ->
  Forall (fun x => forall p, obs_path x = Some p -> len p < 64 /\ Forall is_component p) o.
Proof.
  induction 1 as [d x d' o r H H1 H2 H3 IH | d d' H | d e H | d d' H | d H]; intros HI; try constructor.
  assert (HI' := Inv_of_step _ _ _ _ HI H). apply Forall_app. split; [|auto].
  assert (P : len (current_path d') < 64 /\ Forall is_component (current_path d')).
  { assert (D := I_depth _ HI'). assert (Q := I_names _ HI'). unfold NODES_MAX in D. unfold current_path. split.
    - unfold len. rewrite rev_length, map_length. change (N.of_nat (length (removelast (d_nodes d')))) with (len (removelast (d_nodes d'))). destruct (d_nodes d') eqn:E; [reflexivity|]. rewrite len_removelast by discriminate. lia.
    - apply Forall_rev. apply Forall_map. exact Q. }
  destruct x; cbn [observe]; try apply Forall_nil.
  - destruct (d_nodes d') as [|n up]; [constructor|]. destruct (dn_entry n); [|constructor]. constructor; [|constructor].
    cbn. intros p E; injection E as <-. exact P.
  - constructor; [|constructor]. cbn. intros p E; injection E as <-. exact P.
  - destruct (get_payload d'); try constructor. apply Forall_map, Forall_forall. cbn. discriminate.
Qed.

(** ** Blobs *)
Lemma drun_blob env mode d i o r : S_ISDIR mode = false -> decoder_new mode = Ok d -> drun env d i o r ->
  o = map OByte i /\ r = Finished [].
Proof.
  intros D H R. assert (HI := Inv_new _ _ H). assert (He := new_eof _ _ H).
  apply drun_erun in R; [|exact HI|congruence].
  eapply erun_det; [exact R|]. clear R. 
  unfold decoder_new in H. rewrite D in H.
  assert (M : (S_ISREG mode || S_ISBLK mode)%bool = true).
  { destruct (S_ISREG mode), (S_ISBLK mode); auto. cbn in H. discriminate. }
  assert (MN : mode <> MODE_NONE) by (apply reg_not_none, M).
  replace (negb (S_ISREG mode) && negb false && negb (S_ISBLK mode))%bool with false in H
    by (destruct (S_ISREG mode), (S_ISBLK mode); auto; discriminate).
  injection H as <-. unfold full. cbn [d_state d_ff d_nodes d_buf d_eof d_aoff d_poff d_step app].
  set (n := mkDnode [] UINT64_MAX None mode).
  assert (NM : node_mode n = mode) by reflexivity.
  assert (SP : forall b ao po, step_payload (mkDec D_IN_PAYLOAD UINT64_MAX [n] b true ao po 0 0) n =
     if 0 <? len b then Ok (R_PAYLOAD, mkDec D_IN_PAYLOAD UINT64_MAX [n] b true ao po (len b) 0)
     else Ok (R_FINISHED, mkDec D_EOF UINT64_MAX [n] b true ao 0 0 0)).
  { intros b ao po. unfold step_payload. rewrite NM. apply N.eqb_neq in MN. rewrite MN, M.
    cbn [negb d_buf d_poff d_eof dn_entry n d_state d_ff d_nodes d_aoff]. destruct (0 <? len b); [reflexivity|].
    assert (K : is_naked (mkDec D_IN_PAYLOAD UINT64_MAX [n] b true ao po 0 0) = true) by (unfold is_naked, n; cbn; exact M).
    rewrite K. reflexivity. }
  assert (S0 : decoder_step env (mkDec D_INIT UINT64_MAX [n] i true 0 0 0 0) = step_payload (mkDec D_IN_PAYLOAD UINT64_MAX [n] i true 0 0 0 0) n).
  { unfold decoder_step. cbn [d_state d_nodes advance_buffer d_step bind]. unfold advance_buffer. cbn [d_step bind d_nodes].
    change (0 =? 0) with true. cbn [bind d_nodes]. unfold step_node. cbn [d_state].
    assert (K : is_naked (mkDec D_INIT UINT64_MAX [n] i true 0 0 0 0) = true) by (unfold is_naked, n; cbn; exact M).
    rewrite K. reflexivity. }
  rewrite SP in S0. destruct (N.ltb_spec 0 (len i)) as [L | L].
  - assert (O1 : map OByte i = observe R_PAYLOAD (mkDec D_IN_PAYLOAD UINT64_MAX [n] i true 0 0 (len i) 0) ++ []).
    { unfold observe, get_payload. cbn [d_nodes]. rewrite NM. apply N.eqb_neq in MN. rewrite MN.
      replace (negb (S_ISREG mode) && negb (S_ISBLK mode))%bool with false by (destruct (S_ISREG mode), (S_ISBLK mode); auto; discriminate).
      cbn [d_state d_buf d_step]. destruct (N.eqb_spec (len i) 0); [lia|]. cbn [orb]. rewrite N.ltb_irrefl, takeN_all, app_nil_r by lia. reflexivity. }
    rewrite O1. eapply erun_step; [exact S0|discriminate|discriminate|].
    assert (S1 : decoder_step env (mkDec D_IN_PAYLOAD UINT64_MAX [n] i true 0 0 (len i) 0) =
       step_payload (mkDec D_IN_PAYLOAD UINT64_MAX [n] [] true (add64 0 (len i)) (0 + len i) 0 0) n).
    { unfold decoder_step, advance_buffer. cbn [d_state d_nodes d_step d_buf]. destruct (N.eqb_spec (len i) 0); [lia|].
      rewrite N.ltb_irrefl. cbn [bind d_nodes]. rewrite dropN_all by lia. reflexivity. }
    rewrite SP in S1. change (0 <? len (@nil N)) with false in S1. eapply erun_finished in S1. exact S1.
  - assert (E : len i = 0) by lia. apply len_zero_nil in E. subst i. eapply erun_finished in S0. exact S0.
Qed.
