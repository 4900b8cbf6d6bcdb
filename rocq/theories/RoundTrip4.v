(** Decoding what the encoder writes, part 4: a decoder run over the archive of a tree shows the tree. *)
From Coq Require Import Sorted.
From Verif Require Import Base FeatureFlags ArchiveBase Bst Decoder DecoderSpec DecoderProofs DecoderProofs2 DecoderProofs3 DecoderProofs4 DecoderProofs5 Encoder EncoderProofs RoundTrip1 RoundTrip2 RoundTrip3.
Local Open Scope N_scope.
Local Arguments fld : simpl never.
Local Arguments body : simpl never.

(** All that the decoder demands of a tree. *)
Inductive dec_tree (ff : N) : tree -> Prop :=
| dt_reg m data : dec_file ff m -> S_ISREG (m_mode m) = true -> dec_tree ff (TReg m data)
| dt_lnk m t : dec_file ff m -> S_ISLNK (m_mode m) = true -> has ff WITH_SYMLINKS = true -> t <> [] -> ~ In 0 t -> len t <= 4095 ->
    dec_tree ff (TLnk m t)
| dt_devn m x y : dec_file ff m -> (S_ISBLK (m_mode m) || S_ISCHR (m_mode m))%bool = true -> has ff WITH_DEVICE_NODES = true -> x < 4096 -> y < 1048576 ->
    dec_tree ff (TDev m x y)
| dt_other m : dec_file ff m -> (S_ISFIFO (m_mode m) || S_ISSOCK (m_mode m))%bool = true -> dec_tree ff (TOther m)
| dt_dir m ents : dec_file ff m -> S_ISDIR (m_mode m) = true ->
    Forall (fun e => is_component (fst e) /\ dec_tree ff (snd e)) ents -> dec_tree ff (TDir m ents).

(** At most [k] levels of directory entries. *)
Inductive deep : nat -> tree -> Prop :=
| deep_reg k m d : deep k (TReg m d)
| deep_lnk k m t : deep k (TLnk m t)
| deep_dev k m x y : deep k (TDev m x y)
| deep_other k m : deep k (TOther m)
| deep_empty k m : deep k (TDir m [])
| deep_dir k m ents : Forall (fun e => deep k (snd e)) ents -> deep (S k) (TDir m ents).

Lemma ser_meta_len ev m : 64 <= len (ser_meta ev m).
Proof. unfold ser_meta. rewrite len_app, len_obj, !len_app, !len_le64. lia. Qed.
Lemma arch_len ev : (forall t b, arch ev t b -> 64 <= len b) /\ (forall l b ls, arch_ents ev l b ls -> 81 * len l <= len b /\ len ls = len l).
Proof.
  apply arch_mutind; intros; rewrite ?len_app; try (pose proof (ser_meta_len ev m); lia).
  - change (@len (list N * tree) []) with 0. split; [lia|reflexivity].
  - rewrite !len_cons, len_obj, len_app. change (len [0]) with 1. lia.
Qed.

Definition path_of (ns : list dnode) : list (list N) := rev (map dn_name (removelast ns)).
Lemma path_cons n up : up <> [] -> path_of (n :: up) = path_of up ++ [dn_name n].
Proof. destruct up; [congruence|reflexivity]. Qed.
Lemma path_head n n' up : dn_name n = dn_name n' -> path_of (n :: up) = path_of (n' :: up).
Proof. intros H. destruct up; [reflexivity|]. unfold path_of. cbn. rewrite H. reflexivity. Qed.

Definition next_ok (rest : list N) : Prop :=
  (exists n x, rest = obj F_FILENAME (n ++ [0]) ++ x /\ is_component n /\ 16 + len (n ++ [0]) < UINT64_MAX) \/
  (exists o (ls : list gitem) gb x, rest = gb ++ x /\ goodbye_of o ls gb /\ 40 + 24 * len ls <= o /\ o < UINT64_MAX).

Section Run.
Variables (env : denv) (ev : eenv).
Let ff := ev_ff ev.

(** [B] is how many nodes from the root on are not left any more: 0 unless a seek found something. *)
Variable B : N.
Record ready (d : dec) (st : dstate) (f : N) (ns : list dnode) (buf : list N) (a : N) : Prop := mkReady {
  rd_state : d_state d = st; rd_ff : d_ff d = f; rd_nodes : d_nodes d = ns; rd_buf : dropN (d_step d) (d_buf d) = buf;
  rd_step : d_step d <= len (d_buf d); rd_off : d_aoff d + d_step d = a; rd_eof : d_eof d = true; rd_bound : d_bound d = B }.


Lemma ready_step d st f n up buf a : ready d st f (n :: up) buf a -> a < two64 -> st <> D_EOF -> st <> D_IN_PAYLOAD ->
  decoder_step env d = step_node env (mkDec st f (n :: up) buf true a (d_poff d) 0 B) n up.
Proof.
  intros [R1 R2 R3 R4 R5 R6 R7 R8] Ha H1 H2. unfold decoder_step. rewrite advance_ok by exact R5. cbn [bind]. unfold adv. rewrite R1, R2, R3, R4, R7, R8.
  cbn [d_nodes].
  assert (E : (if d_step d =? 0 then d_aoff d else add64 (d_aoff d) (d_step d)) = a).
  { destruct (N.eqb_spec (d_step d) 0) as [E | E]; [lia|]. unfold add64. rewrite R6. apply N.mod_small, Ha. }
  rewrite E. destruct st; try congruence; reflexivity.
Qed.

Lemma next_entry ar m x off : dec_file ff m -> next_ok x -> (S_ISDIR (m_mode m) = true \/ (S_ISFIFO (m_mode m) || S_ISSOCK (m_mode m))%bool = true) ->
  (ar = true -> S_ISDIR (m_mode m) = true) ->
  P env ar ff (acc_of ff m) x off = (ROk (mkDentry m None None None) off, ff).
Proof.
  intros D [(n & y & -> & C & B0) | (o & k & gb & y & -> & G & B1 & B2)] F A.
  - rewrite (P_done env ff ar m _ off 0 PFilename D F A) by (apply end_filename; assumption). rewrite N.add_0_r. reflexivity.
  - rewrite (P_done env ff ar m _ off 0 PGoodbye D F A) by (eapply end_goodbye; eassumption). rewrite N.add_0_r. reflexivity.
Qed.

(** Parsing the entry of a file. *)
Definition entry_of (t : tree) : dentry :=
  match t with
  | TReg m d => mkDentry m None None (Some (len d))
  | TLnk m s => mkDentry m (Some s) None None
  | TDev m x y => mkDentry m None (Some (x, y)) None
  | TOther m | TDir m _ => mkDentry m None None None
  end.

(** First step into a file: its entry. *)
Lemma enter_file d st f0 nd up p m rest a e off : ready d st f0 (nd :: up) p a -> a < two64 ->
  (st = D_ENTERED \/ st = D_INIT /\ up = [] /\ dn_entry nd = None /\ S_ISDIR (dn_mode nd) = true) ->
  ff_ok env ff f0 -> dec_file ff m -> p = ser_meta ev m ++ rest ->
  P env (len (nd :: up) =? 1) ff (acc_of ff m) rest (len (ser_meta ev m)) = (ROk e off, ff) -> off <= len p ->
  exists d', decoder_step env d = Ok (R_NEXT_FILE, d') /\
    ready d' D_ENTRY ff (mkDnode (dn_name nd) (dn_entry_offset nd) (Some e) MODE_NONE :: up) (dropN off p) (a + off).
Proof.
  intros R Ha Hst Hf D Hp HP Ho. 
  assert (E : step_entry env (mkDec st f0 (nd :: up) p true a (d_poff d) 0 B) nd up =
    Ok (R_NEXT_FILE, enter (set_nodes (set_ff (mkDec st f0 (nd :: up) p true a (d_poff d) 0 B) ff)
      (mkDnode (dn_name nd) (dn_entry_offset nd) (Some e) MODE_NONE :: up)) D_ENTRY off)).
  { unfold step_entry. cbn [d_ff d_buf]. unfold at_root. cbn [d_nodes].
    change (parse_entry env (len (nd :: up) =? 1) f0 p) with (P env (len (nd :: up) =? 1) f0 pacc0 p 0).
    rewrite Hp at 1. rewrite (P_meta env ff ev) by (reflexivity || assumption || apply D). rewrite HP. reflexivity. }
  eexists. split.
  - rewrite (ready_step d st f0 nd up p a R Ha); [|destruct Hst as [-> | [-> _]]; discriminate|destruct Hst as [-> | [-> _]]; discriminate].
    unfold step_node. cbn [d_state]. destruct Hst as [-> | (-> & -> & E1 & E2)]; [exact E|].
    assert (Q : is_naked (mkDec D_INIT f0 [nd] p true a (d_poff d) 0 B) = false).
    { unfold is_naked. cbn [d_nodes]. rewrite E1. cbn [some negb andb]. unfold S_ISREG, S_ISBLK. unfold S_ISDIR in E2. rewrite !(is_type_inj _ _ _ E2). reflexivity. }
    rewrite Q. exact E.
  - unfold enter, set_nodes, set_ff. constructor; try reflexivity. exact Ho.
Qed.

Lemma not_none m : dec_file ff m -> m_mode m <> MODE_NONE.
Proof. intros D E. pose proof (vm_mode m (df_valid _ _ D)) as V. rewrite E in V. discriminate. Qed.

(** The steps behind the entry of a file that is no directory. *)
Lemma leave_plain d nm eo m sl dv up rest a o r : dec_file ff m -> S_ISREG (m_mode m) = false -> S_ISDIR (m_mode m) = false ->
  ready d D_ENTRY ff (mkDnode nm eo (Some (mkDentry m sl dv None)) MODE_NONE :: up) rest a -> a < two64 ->
  (forall d' nd', dn_name nd' = nm -> ready d' D_FINALIZE ff (nd' :: up) rest a -> erun env d' o r) ->
  erun env d ([ODone (path_of (mkDnode nm eo (Some (mkDentry m sl dv None)) MODE_NONE :: up))] ++ o) r.
Proof.
  intros D N1 N2 R Ha K.
  refine (erun_step env d R_DONE_FILE (mkDec D_FINALIZE ff (mkDnode nm eo (Some (mkDentry m sl dv None)) MODE_NONE :: up) rest true a 0 0 B) o r _ _ _ _);
    try discriminate.
  - rewrite (ready_step _ _ _ _ _ _ _ R Ha) by discriminate. unfold step_node. cbn [d_state node_mode dn_entry dt_meta].
    rewrite if_eqb_false by (apply not_none, D). rewrite N1, N2. reflexivity.
  - eapply K; [|constructor; try reflexivity; cbn; lia]. reflexivity.
Qed.

Lemma leave_reg d nm eo m data up rest a o r : dec_file ff m -> S_ISREG (m_mode m) = true ->
  ready d D_ENTRY ff (mkDnode nm eo (Some (mkDentry m None None (Some (len data)))) MODE_NONE :: up) (data ++ rest) a -> a + len data < two64 ->
  (forall d' nd', dn_name nd' = nm -> ready d' D_FINALIZE ff (nd' :: up) rest (a + len data) -> erun env d' o r) ->
  erun env d (map OByte data ++ [ODone (path_of (mkDnode nm eo (Some (mkDentry m None None (Some (len data)))) MODE_NONE :: up))] ++ o) r.
Proof.
  intros D N1 R Ha K. set (nd := mkDnode nm eo (Some (mkDentry m None None (Some (len data)))) MODE_NONE) in *.
  assert (S1 : decoder_step env d = step_payload (mkDec D_IN_PAYLOAD ff (nd :: up) (data ++ rest) true a 0 0 B) nd).
  { rewrite (ready_step _ _ _ _ _ _ _ R) by (discriminate || lia). unfold step_node. cbn [d_state node_mode nd dn_entry dt_meta].
    rewrite if_eqb_false by (apply not_none, D). rewrite N1. reflexivity. }
  destruct (N.eq_dec (len data) 0) as [Z | Z].
  - apply len_zero_nil in Z. subst data. cbn [map app].
    refine (erun_step env d R_DONE_FILE (mkDec D_FINALIZE ff (nd :: up) rest true a 0 0 B) o r _ _ _ _); try discriminate.
    + rewrite S1. unfold step_payload. cbn [node_mode nd dn_entry dt_meta dt_size d_poff]. rewrite if_eqb_false by (apply not_none, D). rewrite N1. reflexivity.
    + eapply K; [|constructor; try reflexivity; cbn; lia]. reflexivity.
  - set (d1 := mkDec D_IN_PAYLOAD ff (nd :: up) (data ++ rest) true a 0 (len data) B).
    assert (S2 : decoder_step env d = Ok (R_PAYLOAD, d1)).
    { rewrite S1. unfold step_payload. cbn [node_mode nd dn_entry dt_meta dt_size d_poff d_buf]. rewrite if_eqb_false by (apply not_none, D). rewrite N1. cbn [orb negb].
      rewrite if_ltb_false by lia. rewrite if_eqb_false by lia.
      assert (Q : (0 <? len (data ++ rest)) = true) by (apply N.ltb_lt; rewrite len_app; lia). rewrite Q.
      unfold d1. cbn [d_state d_ff d_nodes d_eof d_aoff d_poff]. do 3 f_equal. rewrite len_app. lia. }
    assert (O : observe R_PAYLOAD d1 = map OByte data).
    { unfold observe, get_payload. cbn [d1 d_nodes node_mode nd dn_entry dt_meta d_state d_buf d_step]. rewrite if_eqb_false by (apply not_none, D). rewrite N1. cbn [negb andb].
      destruct (N.eqb_spec (len (data ++ rest)) 0) as [Q | _]; [rewrite len_app in Q; lia|]. destruct (N.eqb_spec (len data) 0); [contradiction|]. cbn [orb].
      rewrite if_ltb_false by (rewrite len_app; lia). rewrite takeN_app_exact by reflexivity. reflexivity. }
    rewrite <- O. refine (erun_step env d R_PAYLOAD d1 _ r S2 _ _ _); try discriminate.
    refine (erun_step env d1 R_DONE_FILE (mkDec D_FINALIZE ff (nd :: up) rest true (a + len data) 0 0 B) o r _ _ _ _); try discriminate.
    + unfold decoder_step. cbn [d1 d_state d_nodes]. rewrite advance_ok by (cbn [d1 d_step d_buf]; rewrite len_app; lia). cbn [bind].
      unfold adv. cbn [d1 d_state d_nodes d_ff d_buf d_step d_eof d_aoff d_poff]. rewrite if_eqb_false by exact Z. rewrite dropN_app_exact by reflexivity.
      unfold add64. rewrite N.mod_small by lia. unfold step_node. cbn [d_state]. unfold step_payload. cbn [node_mode nd dn_entry dt_meta dt_size d_poff].
      rewrite if_eqb_false by (apply not_none, D). rewrite N1. cbn [orb negb]. rewrite if_ltb_false by lia.
      replace (0 + len data =? len data) with true by (symmetry; apply N.eqb_eq; lia). reflexivity.
    + eapply K; [|constructor; try reflexivity; cbn; lia]. reflexivity.
Qed.

(** A step in a directory. *)
Lemma dir_step d st nd up p a m : ready d st ff (nd :: up) p a -> a < two64 -> (st = D_ENTRY \/ st = D_IN_DIRECTORY) ->
  dn_entry nd = Some (mkDentry m None None None) -> dec_file ff m -> S_ISDIR (m_mode m) = true ->
  exists po, decoder_step env d = step_filename (mkDec D_IN_DIRECTORY ff (nd :: up) p true a po 0 B) nd.
Proof.
  intros R Ha Hst E D N1. exists (match st with D_ENTRY => 0 | _ => d_poff d end).
  rewrite (ready_step _ _ _ _ _ _ _ R Ha); [|destruct Hst as [-> | ->]; discriminate|destruct Hst as [-> | ->]; discriminate].
  unfold step_node. cbn [d_state]. unfold node_mode. rewrite E. cbn [dt_meta]. rewrite if_eqb_false by (apply not_none, D).
  assert (N2 : S_ISREG (m_mode m) = false) by (unfold S_ISREG; unfold S_ISDIR in N1; rewrite (is_type_inj _ _ _ N1); reflexivity).
  rewrite N1. destruct Hst as [-> | ->]; [rewrite N2; reflexivity|]. rewrite if_eqb_false by (apply not_none, D). reflexivity.
Qed.

Lemma step_silent d d' o r : decoder_step env d = Ok (R_STEP, d') -> erun env d' o r -> erun env d o r.
Proof. intros H R. exact (erun_step env d R_STEP d' o r H ltac:(discriminate) ltac:(discriminate) R). Qed.

Lemma enter_erun d st f0 nd up p m rest a e off o r : ready d st f0 (nd :: up) p a -> a < two64 ->
  (st = D_ENTERED \/ st = D_INIT /\ up = [] /\ dn_entry nd = None /\ S_ISDIR (dn_mode nd) = true) ->
  ff_ok env ff f0 -> dec_file ff m -> p = ser_meta ev m ++ rest ->
  P env (len (nd :: up) =? 1) ff (acc_of ff m) rest (len (ser_meta ev m)) = (ROk e off, ff) -> off <= len p ->
  (forall d', ready d' D_ENTRY ff (mkDnode (dn_name nd) (dn_entry_offset nd) (Some e) MODE_NONE :: up) (dropN off p) (a + off) -> erun env d' o r) ->
  erun env d (OFile (path_of (nd :: up)) e :: o) r.
Proof.
  intros R Ha Hst Hf D Hp HP Ho K. destruct (enter_file _ _ _ _ _ _ _ _ _ _ _ R Ha Hst Hf D Hp HP Ho) as (d1 & S1 & R1).
  replace (OFile (path_of (nd :: up)) e :: o) with (observe R_NEXT_FILE d1 ++ o).
  - refine (erun_step env d R_NEXT_FILE d1 o r S1 _ _ (K d1 R1)); discriminate.
  - unfold observe. unfold current_path. rewrite (rd_nodes _ _ _ _ _ _ R1). cbn [dn_entry app]. f_equal. f_equal.
    change (path_of (mkDnode (dn_name nd) (dn_entry_offset nd) (Some e) MODE_NONE :: up) = path_of (nd :: up)). apply path_head. reflexivity.
Qed.

Lemma ents_next ents b ls o (k : list gitem) gb x : arch_ents ev ents b ls -> Forall (fun e => is_component (fst e) /\ dec_tree ff (snd e)) ents ->
  len b < UINT64_MAX - 16 -> goodbye_of o k gb -> 40 + 24 * len k <= o -> o < UINT64_MAX -> next_ok (b ++ gb ++ x).
Proof.
  intros A F B0 G G1 G2. inversion A as [|n t bt l bl ls' A1 A2]; subst.
  - right. exists o, k, gb, x. auto.
  - left. destruct (Forall_inv F) as [C _]. cbn in C. exists n, ((bt ++ bl) ++ gb ++ x). split; [rewrite <- app_assoc; reflexivity|]. split; [exact C|].
    revert B0. rewrite len_app, len_obj. lia.
Qed.

Theorem run_tree :
  (forall t b, arch ev t b -> dec_tree ff t -> forall k st d nd up rest a f0 o r,
     B <= len up ->
     deep k t -> len (nd :: up) + N.of_nat k <= NODES_MAX ->
     ready d st f0 (nd :: up) (b ++ rest) a -> a + len b < UINT64_MAX - 16 ->
     (st = D_ENTERED \/ st = D_INIT /\ up = [] /\ dn_entry nd = None /\ S_ISDIR (dn_mode nd) = true) ->
     (len (nd :: up) =? 1 = true -> exists m ents, t = TDir m ents) ->
     ff_ok env ff f0 -> dn_entry_offset nd = a -> (match t with TOther _ => next_ok rest | _ => True end) ->
     (forall d' nd', dn_name nd' = dn_name nd -> ready d' D_FINALIZE ff (nd' :: up) rest (a + len b) -> erun env d' o r) ->
     erun env d (tree_obs (path_of (nd :: up)) t ++ o) r) /\
  (forall ents b ls, arch_ents ev ents b ls -> forall k st d nd up m gb rest a kk o r,
     B <= len up ->
     Forall (fun e => is_component (fst e) /\ dec_tree ff (snd e)) ents ->
     Forall (fun e => deep k (snd e)) ents -> (ents <> [] -> len (nd :: up) + 1 + N.of_nat k <= NODES_MAX) ->
     ready d st ff (nd :: up) (b ++ gb ++ rest) a -> a + len b + len gb < UINT64_MAX - 16 -> (st = D_ENTRY \/ st = D_IN_DIRECTORY) ->
     dn_entry nd = Some (mkDentry m None None None) -> dec_file ff m -> S_ISDIR (m_mode m) = true ->
     (forall f0, f0 = ff -> ff_ok env ff f0) ->
     dn_entry_offset nd <= a -> goodbye_of (a + len b - dn_entry_offset nd) kk gb -> 40 + 24 * len kk <= a + len b - dn_entry_offset nd ->
     (forall d' nd', dn_name nd' = dn_name nd -> ready d' D_FINALIZE ff (nd' :: up) rest (a + len b + len gb) -> erun env d' o r) ->
     erun env d (concat (map (fun e => tree_obs (path_of (nd :: up) ++ [fst e]) (snd e)) ents) ++ [ODone (path_of (nd :: up))] ++ o) r).
Proof.
  apply arch_mutind.
  - (* regular file *)
    intros m data DT k st d nd up rest a f0 o r Hb _ _ R Ha Hst Hroot Hff He _ K. inversion DT as [? ? D N1| | | |]; subst.
    rewrite <- !app_assoc in R. set (tl := le64 (HDR + len data) ++ le64 F_PAYLOAD ++ data ++ rest) in *.
    assert (La : len (ser_meta ev m ++ le64 (HDR + len data) ++ le64 F_PAYLOAD ++ data) = len (ser_meta ev m) + 16 + len data)
      by (rewrite !len_app, !len_le64; lia).
    rewrite La in *.
    assert (Z : (len (nd :: up) =? 1) = false) by (destruct (len (nd :: up) =? 1) eqn:Z; [destruct (Hroot eq_refl) as (? & ? & ?); discriminate|reflexivity]).
    assert (HP : P env (len (nd :: up) =? 1) ff (acc_of ff m) tl (len (ser_meta ev m)) =
      (ROk (mkDentry m None None (Some (len data))) (len (ser_meta ev m) + HDR), ff)).
    { rewrite (P_done env ff _ m tl _ HDR (PPayload (len data)) D); [reflexivity|exact N1|rewrite Z; discriminate|].
      apply end_payload; [exact D|exact N1|]. unfold HDR, UINT64_MAX in *. lia. }
    cbn [tree_obs app]. rewrite <- app_assoc.
    refine (enter_erun _ _ _ _ _ _ _ _ _ _ _ _ _ R _ Hst Hff D eq_refl HP _ _).
    { unfold two64, UINT64_MAX in *; lia. }
    { unfold tl. rewrite !len_app, !len_le64. unfold HDR. lia. }
    intros d1 R1. erewrite path_head; [eapply leave_reg; [exact D|exact N1| | |]|reflexivity].
    + replace (data ++ rest) with (dropN (len (ser_meta ev m) + HDR) (ser_meta ev m ++ tl)); [exact R1|].
      rewrite dropN_app_ge by lia. unfold tl. rewrite app_assoc. apply dropN_app_exact. rewrite len_app, !len_le64. unfold HDR. lia.
    + unfold two64, UINT64_MAX, HDR in *. lia.
    + intros d' nd' En R'. apply (K d' nd' En). replace (_ + (_ + 16 + _)) with (dn_entry_offset nd + (len (ser_meta ev m) + HDR) + len data); [exact R'|unfold HDR; lia].
  - (* symlink *)
    intros m t DT k st d nd up rest a f0 o r Hb _ _ R Ha Hst Hroot Hff He _ K. inversion DT as [|? ? D N1 N2 T1 T2 T3| | |]; subst.
    rewrite <- !app_assoc in R. rewrite !len_app in *.
    assert (Z : (len (nd :: up) =? 1) = false) by (destruct (len (nd :: up) =? 1) eqn:Z; [destruct (Hroot eq_refl) as (? & ? & ?); discriminate|reflexivity]).
    assert (HP : P env (len (nd :: up) =? 1) ff (acc_of ff m) (obj F_SYMLINK (t ++ [0]) ++ rest) (len (ser_meta ev m)) =
      (ROk (mkDentry m (Some t) None None) (len (ser_meta ev m) + len (obj F_SYMLINK (t ++ [0]))), ff)).
    { rewrite (P_done env ff _ m _ _ (len (obj F_SYMLINK (t ++ [0]))) (PSymlink t) D); [reflexivity|exact N1|rewrite Z; discriminate|].
      apply end_symlink; assumption. }
    cbn [tree_obs app].
    refine (enter_erun _ _ _ _ _ _ _ _ _ _ _ _ _ R _ Hst Hff D eq_refl HP _ _).
    { unfold two64, UINT64_MAX in *; lia. }
    { rewrite !len_app. lia. }
    intros d1 R1. erewrite path_head; [eapply leave_plain; [exact D| | | | |]|reflexivity].
    + unfold S_ISREG, S_ISLNK in *. rewrite (is_type_inj _ _ _ N1). reflexivity.
    + unfold S_ISDIR, S_ISLNK in *. rewrite (is_type_inj _ _ _ N1). reflexivity.
    + exact R1.
    + unfold two64, UINT64_MAX in *. lia.
    + intros d' nd' En R'. apply (K d' nd' En). revert R'. rewrite app_assoc, dropN_app_exact by (rewrite len_app; reflexivity). auto.
  - (* device *)
    intros m x y DT k st d nd up rest a f0 o r Hb _ _ R Ha Hst Hroot Hff He _ K. inversion DT as [| |? ? ? D N1 N2 T1 T2| |]; subst.
    rewrite <- !app_assoc in R. rewrite len_app in *.
    assert (Z : (len (nd :: up) =? 1) = false) by (destruct (len (nd :: up) =? 1) eqn:Z; [destruct (Hroot eq_refl) as (? & ? & ?); discriminate|reflexivity]).
    assert (HP : P env (len (nd :: up) =? 1) ff (acc_of ff m) (obj F_DEVICE (le64 x ++ le64 y) ++ rest) (len (ser_meta ev m)) =
      (ROk (mkDentry m None (Some (x, y)) None) (len (ser_meta ev m) + len (obj F_DEVICE (le64 x ++ le64 y))), ff)).
    { rewrite (P_done env ff _ m _ _ (len (obj F_DEVICE (le64 x ++ le64 y))) (PDevice x y) D); [reflexivity|exact N1|rewrite Z; discriminate|].
      apply end_device; assumption. }
    cbn [tree_obs app].
    refine (enter_erun _ _ _ _ _ _ _ _ _ _ _ _ _ R _ Hst Hff D eq_refl HP _ _).
    { unfold two64, UINT64_MAX in *; lia. }
    { rewrite !len_app. lia. }
    intros d1 R1. erewrite path_head; [eapply leave_plain; [exact D| | | | |]|reflexivity].
    + unfold S_ISREG, S_ISBLK, S_ISCHR in *. apply orb_true_iff in N1. destruct N1 as [N1 | N1]; rewrite (is_type_inj _ _ _ N1); reflexivity.
    + unfold S_ISDIR, S_ISBLK, S_ISCHR in *. apply orb_true_iff in N1. destruct N1 as [N1 | N1]; rewrite (is_type_inj _ _ _ N1); reflexivity.
    + exact R1.
    + unfold two64, UINT64_MAX in *. lia.
    + intros d' nd' En R'. apply (K d' nd' En). revert R'. rewrite app_assoc, dropN_app_exact by (rewrite len_app; reflexivity). auto.
  - (* FIFO, socket *)
    intros m DT k st d nd up rest a f0 o r Hb _ _ R Ha Hst Hroot Hff He Nx K. inversion DT as [| | |? D N1|]; subst.
    assert (Z : (len (nd :: up) =? 1) = false) by (destruct (len (nd :: up) =? 1) eqn:Z; [destruct (Hroot eq_refl) as (? & ? & ?); discriminate|reflexivity]).
    assert (HP : P env (len (nd :: up) =? 1) ff (acc_of ff m) rest (len (ser_meta ev m)) =
      (ROk (mkDentry m None None None) (len (ser_meta ev m)), ff)).
    { apply next_entry; [exact D|exact Nx|right; exact N1|rewrite Z; discriminate]. }
    cbn [tree_obs app].
    refine (enter_erun _ _ _ _ _ _ _ _ _ _ _ _ _ R _ Hst Hff D eq_refl HP _ _).
    { unfold two64, UINT64_MAX in *; lia. }
    { rewrite !len_app. lia. }
    intros d1 R1. erewrite path_head; [eapply leave_plain; [exact D| | | | |]|reflexivity].
    + unfold S_ISREG, S_ISFIFO, S_ISSOCK in *. apply orb_true_iff in N1. destruct N1 as [N1 | N1]; rewrite (is_type_inj _ _ _ N1); reflexivity.
    + unfold S_ISDIR, S_ISFIFO, S_ISSOCK in *. apply orb_true_iff in N1. destruct N1 as [N1 | N1]; rewrite (is_type_inj _ _ _ N1); reflexivity.
    + exact R1.
    + unfold two64, UINT64_MAX in *. lia.
    + intros d' nd' En R'. apply (K d' nd' En). revert R'. rewrite dropN_app_exact by reflexivity. auto.
  - (* directory *)
    intros m ents b ls gb AE IH G DT k st d nd up rest a f0 o r Hb Dp Hk R Ha Hst Hroot Hff He _ K. inversion DT as [| | | |? ? D N1 F]; subst.
    rewrite <- !app_assoc in R.
    assert (La : len (ser_meta ev m ++ b ++ gb) = len (ser_meta ev m) + len b + len gb) by (rewrite !len_app; lia). rewrite La in *.
    pose proof (ser_meta_len ev m) as Lm. destruct (proj2 (arch_len ev) _ _ _ AE) as [Lb Ll]. rewrite len_app in G.
    assert (HP : P env (len (nd :: up) =? 1) ff (acc_of ff m) (b ++ gb ++ rest) (len (ser_meta ev m)) =
      (ROk (mkDentry m None None None) (len (ser_meta ev m)), ff)).
    { apply next_entry; [exact D| |left; exact N1|auto]. eapply ents_next; eauto; unfold UINT64_MAX in *; lia. }
    cbn [tree_obs app]. rewrite <- app_assoc.
    refine (enter_erun _ _ _ _ _ _ _ _ _ _ _ _ _ R _ Hst Hff D eq_refl HP _ _).
    { unfold two64, UINT64_MAX in *; lia. }
    { rewrite !len_app. lia. }
    intros d1 R1. rewrite dropN_app_exact in R1 by reflexivity.
    set (nd1 := mkDnode (dn_name nd) (dn_entry_offset nd) (Some (mkDentry m None None None)) MODE_NONE) in *.
    rewrite (path_head nd nd1 up eq_refl).
    assert (Fd : exists k', Forall (fun e => deep k' (snd e)) ents /\ (ents <> [] -> len (nd1 :: up) + 1 + N.of_nat k' <= NODES_MAX)).
    { inversion Dp; subst.
      - exists 0%nat. split; [constructor|congruence].
      - exists k0. split; [assumption|]. intros _. rewrite len_cons in *. lia. }
    destruct Fd as (k' & Fd & Hk').
    eapply (IH k' D_ENTRY d1 nd1 up m gb rest _ ls o r Hb F Fd Hk' R1).
    + lia.
    + auto.
    + reflexivity.
    + exact D.
    + exact N1.
    + intros f1 ->. destruct Hff as (V & W & X). split; [|auto]. exact (validate_feature_flags_again _ _ _ _ V).
    + cbn [nd1 dn_entry_offset]. lia.
    + cbn [nd1 dn_entry_offset]. replace (dn_entry_offset nd + len (ser_meta ev m) + len b - dn_entry_offset nd) with (len (ser_meta ev m) + len b) by lia. exact G.
    + cbn [nd1 dn_entry_offset]. lia.
    + intros d' nd' En R'. apply (K d' nd'); [exact En|]. rewrite !N.add_assoc. exact R'.
  - (* no entries left *)
    intros k st d nd up m gb rest a kk o r Hb F Fd Hk R Ha Hst E D N1 Hff Ho G G1 K. cbn [app map concat] in *.
    change (@len N []) with 0 in *. rewrite ?N.add_0_r in *.
    destruct (dir_step d st nd up _ a m R ltac:(unfold two64, UINT64_MAX in *; lia) Hst E D N1) as [po S1].
    assert (S2 : decoder_step env d = Ok (R_STEP, mkDec D_GOODBYE ff (nd :: up) (gb ++ rest) true a 0 (len gb) B)).
    { rewrite S1. unfold step_filename. cbn [d_buf]. rewrite (fn_goodbye _ _ _ _ G) by (unfold UINT64_MAX in *; lia). cbn [d_aoff].
      rewrite if_f; [reflexivity|].
      assert (Z : sub64 a (dn_entry_offset nd) = a - dn_entry_offset nd).
      { unfold sub64. replace (a + (two64 - dn_entry_offset nd)) with ((a - dn_entry_offset nd) + 1 * two64) by (unfold two64, UINT64_MAX in *; lia).
        rewrite N.mod_add by discriminate. apply N.mod_small. unfold two64, UINT64_MAX in *. lia. }
      rewrite Z, N.eqb_refl. rewrite andb_false_r. reflexivity. }
    apply (step_silent _ _ _ _ S2).
    refine (erun_step env _ R_DONE_FILE (mkDec D_FINALIZE ff (nd :: up) rest true (a + len gb) 0 0 B) o r _ _ _ _); try discriminate.
    + rewrite (ready_step _ D_GOODBYE ff nd up rest (a + len gb)) by (discriminate || (unfold two64, UINT64_MAX in *; lia) ||
        (constructor; try reflexivity; cbn [d_step d_buf]; [apply dropN_app_exact; reflexivity|rewrite len_app; lia])).
      unfold step_node. cbn [d_state]. unfold node_mode. rewrite E. cbn [dt_meta]. rewrite if_eqb_false by (apply not_none, D). rewrite N1. reflexivity.
    + apply (K _ nd eq_refl). constructor; try reflexivity; cbn; lia.
  - (* one entry and more *)
    intros n t bt l bl ls A1 IH1 A2 IH2 k st d nd up m gb rest a kk o r Hb F Fd Hk R Ha Hst E D N1 Hff Ho G G1 K.
    destruct (Forall_inv F) as [C DT]. pose proof (Forall_inv Fd) as Dp. cbn [fst snd] in C, DT, Dp.
    specialize (Hk ltac:(discriminate)).
    assert (La : len (obj F_FILENAME (n ++ [0]) ++ bt ++ bl) = 16 + len (n ++ [0]) + len bt + len bl) by (rewrite !len_app, len_obj, !len_app; lia).
    rewrite La in *. set (ln := 16 + len (n ++ [0])) in *.
    rewrite <- !app_assoc in R.
    destruct (dir_step d st nd up _ a m R ltac:(unfold two64, UINT64_MAX in *; lia) Hst E D N1) as [po S1].
    set (nc := mkDnode n (a + ln) None MODE_NONE).
    assert (S2 : decoder_step env d = Ok (R_STEP, mkDec D_ENTERED ff (nc :: nd :: up) (obj F_FILENAME (n ++ [0]) ++ bt ++ bl ++ gb ++ rest) true a 0 ln B)).
    { rewrite S1. unfold step_filename. cbn [d_buf]. rewrite fn_name by (exact C || (unfold UINT64_MAX, ln in *; lia)). fold ln. cbn [d_nodes d_aoff].
      assert (Q : (NODES_MAX <=? len (nd :: up)) = false) by (apply N.leb_gt; lia). rewrite Q.
      unfold add64. rewrite N.mod_small by (unfold two64, UINT64_MAX in *; lia). reflexivity. }
    apply (step_silent _ _ _ _ S2). cbn [map concat fst snd].
    replace (path_of (nd :: up) ++ [n]) with (path_of (nc :: nd :: up)) by (apply path_cons; discriminate).
    rewrite <- app_assoc.
    eapply (IH1 DT k D_ENTERED _ nc (nd :: up) (bl ++ gb ++ rest) (a + ln) ff).
    + rewrite len_cons. lia.
    + exact Dp.
    + rewrite len_cons. lia.
    + constructor; try reflexivity; cbn [d_step d_buf].
      * apply dropN_app_exact. apply len_obj.
      * rewrite len_app, len_obj. unfold ln. lia.
    + lia.
    + auto.
    + rewrite !len_cons. intros Z. apply N.eqb_eq in Z. lia.
    + apply Hff. reflexivity.
    + reflexivity.
    + destruct t; try exact I. eapply ents_next; [exact A2|exact (Forall_inv_tail F)| |exact G| |]; unfold UINT64_MAX in *; lia.
    + intros d' nc' _ R'.
      eapply step_silent.
      { rewrite (ready_step _ _ _ _ _ _ _ R') by (discriminate || (unfold two64, UINT64_MAX in *; lia)). unfold step_node. cbn [d_state d_bound].
        assert (Q : (len (nd :: up) <=? B) = false) by (apply N.leb_gt; rewrite len_cons; lia). rewrite Q.
        unfold enter, set_nodes. cbn. reflexivity. }
      eapply (IH2 k D_IN_DIRECTORY _ nd up m gb rest (a + ln + len bt) kk); clear IH1 IH2.
      * exact Hb.
      * exact (Forall_inv_tail F).
      * exact (Forall_inv_tail Fd).
      * intros _. exact Hk.
      * constructor; try reflexivity; cbn; lia.
      * lia.
      * auto.
      * exact E.
      * exact D.
      * exact N1.
      * exact Hff.
      * lia.
      * replace (a + ln + len bt + len bl) with (a + (ln + len bt + len bl)) by lia. exact G.
      * lia.
      * intros d2 nd2 En R2. apply (K d2 nd2 En). replace (a + (ln + len bt + len bl) + len gb) with (a + ln + len bt + len bl + len gb) by lia. exact R2.
Qed.
End Run.
