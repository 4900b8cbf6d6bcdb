(** C56: hard links to seeds. *)
From Verif Require Import Base FeatureFlags ArchiveBase ChunkId Location LocationSpec Decoder DecoderSpec Encoder Properties_Decoder Properties_RoundTrip Fs Extract ExtractSpec ExtractedSpec
  Properties_Extract ExtractProofs6 Hardlink HardlinkSpec HardlinkProofs HardlinkProofs2 HardlinkCache HardlinkCacheSpec HardlinkCacheProofs.
Local Open Scope N_scope.

(** C56. If a file is linked instead of extracted, whatever trouble there was: its name leads to the very file that the path in the seed leads to,
    which has the size, permissions, owner's number and time that the archive records, and has not been changed; the temporary file is gone; every
    other file has the contents and attributes that it had, and every other name leads where it led. (If the name was a link to that file
    before, a temporary one may be left; see below.) *)
Theorem hardlink_made_partial :
  forall fe cfg enabled root path x w dir f name tmp e l x', finishing x w dir f name tmp e ->
  hpasses fe (try_hardlink cfg enabled root path x) w l (Some (Ok (true, x'))) ->
  exists i nd size g, leads fe w root path i /\ f_ino w i = Some nd /\ dt_size e = Some size /\ as_recorded (d_ff (x_dec x)) (dt_meta e) size nd /\
    lists (last l w) dir g /\ unharmed (c_undo cfg) w (last l w) /\
    g name = Some i /\ g tmp = None /\
    (forall m, m <> name -> m <> tmp -> g m = f m \/ (f name = Some i /\ f m = None /\ temporary m)).
Proof.
  intros fe cfg enabled root path x w dir f name tmp e l x' ((n & ns & c & p & up & E1 & E2 & E3 & E4 & E5 & E6) & Z & C & T1 & T2 & Ne & L & D) P. subst name.
  destruct (hok_passes _ _ _ _ _ P _ _ (try_ok fe cfg enabled root path x n ns c p up e dir tmp w f E1 E2 E4 Z E6 E5 C T1 T2 Ne L D)) as [_ Q].
  destruct (Q _ eq_refl) as ((i & nd & size & g & H1 & H2 & H3 & H4 & (H5 & H6) & H7 & H8 & H9) & _). exists i, nd, size, g. auto 12.
Qed.
Print Assumptions hardlink_made_partial.

(** C56. If it isn't linked, and there is no error, then nothing has happened: the file can still be finalized as usual. *)
Theorem hardlink_not_made_partial :
  forall fe cfg enabled root path x w dir f name tmp e l x', finishing x w dir f name tmp e ->
  hpasses fe (try_hardlink cfg enabled root path x) w l (Some (Ok (false, x'))) -> last l w = w /\ x' = x.
Proof.
  intros fe cfg enabled root path x w dir f name tmp e l x' ((n & ns & c & p & up & E1 & E2 & E3 & E4 & E5 & E6) & Z & C & T1 & T2 & Ne & L & D) P. subst name.
  destruct (hok_passes _ _ _ _ _ P _ _ (try_ok fe cfg enabled root path x n ns c p up e dir tmp w f E1 E2 E4 Z E6 E5 C T1 T2 Ne L D)) as [_ Q]. exact (Q _ eq_refl).
Qed.
Print Assumptions hardlink_not_made_partial.

(** C56. Whatever fails, and whenever the process is killed: in every state in between the name leads where it led before or to the seed's file,
    the other names, but temporary ones, lead where they led, and no file has been changed. *)
Theorem hardlink_atomic_partial :
  forall fe cfg enabled root path x w dir f name tmp e l o, finishing x w dir f name tmp e ->
  hpasses fe (try_hardlink cfg enabled root path x) w l o ->
  forall w1, In w1 l -> exists g, lists w1 dir g /\ unharmed (c_undo cfg) w w1 /\
    (g name = f name \/ exists i, leads fe w root path i /\ g name = Some i) /\ (forall m, m <> name -> ~ temporary m -> g m = f m).
Proof.
  intros fe cfg enabled root path x w dir f name tmp e l o ((n & ns & c & p & up & E1 & E2 & E3 & E4 & E5 & E6) & Z & C & T1 & T2 & Ne & L & D) P w1 Hin. subst name.
  destruct (hok_passes _ _ _ _ _ P _ _ (try_ok fe cfg enabled root path x n ns c p up e dir tmp w f E1 E2 E4 Z E6 E5 C T1 T2 Ne L D)) as [F _].
  rewrite Forall_forall in F. destruct (F _ Hin) as (g & (H1 & H2) & [(H3 & H4) | (i & H3 & H4 & H5)]); exists g; split; auto; split; auto; split; eauto.
Qed.
Print Assumptions hardlink_atomic_partial.

(** C56. The path that a seed names for a digest is one where a file with this digest was. *)
Theorem hardlink_target_sound :
  forall h v o, Forall event_ok h -> id_ok v = true -> get_hardlink_target true v (cached true h) = Ok o -> exists x, In x h /\ tells v (path_text o) x.
Proof. exact found_sound. Qed.
Print Assumptions hardlink_target_sound.

(** C56. A file that the seed has come across is found, until the cache is removed: the first one with the digest is. *)
Theorem hardlink_target_found :
  forall h1 h2 mode v p, Forall event_ok (h1 ++ Finished mode (Ok v) p None :: h2) -> S_ISREG mode = true -> (forall q, p <> 47 :: q) ->
  Forall (fun x => ~ about v x) h1 ->
  exists o, get_hardlink_target true v (cached true (h1 ++ Finished mode (Ok v) p None :: h2)) = Ok o /\ path_text o = p.
Proof. exact found_complete. Qed.
Print Assumptions hardlink_target_found.

(** ** Runs *)
Section HRun.
Variable fe : fenv.
Fixpoint htrace {A} (p : hprog A) (w : fs) : list fs * res A :=
  match p with
  | HRet r => ([], r)
  | HSys c k => let (x, w1) := fs_do fe w c in let (l, r) := htrace (k x) w1 in (w1 :: l, r)
  | HLink r q d n k => let (x, w1) := link_do fe w r q d n in let (l, r) := htrace (k x) w1 in (w1 :: l, r)
  end.
Lemma htrace_passes {A} (p : hprog A) : forall w, hpasses fe p w (fst (htrace p w)) (Some (snd (htrace p w))).
Proof.
  induction p as [r|c k IH|r q d n k IH]; intros w; cbn [htrace]; [constructor| |].
  - destruct (fs_do fe w c) as [x w1] eqn:E. specialize (IH x w1). destruct (htrace (k x) w1) as [l s]. cbn [fst snd] in *.
    eapply (hpasses_call fe c k TNone); [exact Logic.I|exact E|exact IH].
  - destruct (link_do fe w r q d n) as [x w1] eqn:E. specialize (IH x w1). destruct (htrace (k x) w1) as [l s]. cbn [fst snd] in *.
    eapply (hpasses_link fe r q d n k TNone); [exact E|exact IH].
Qed.
Variables (env : denv) (cfg : xcfg).
(** Extraction, to where a file [name] is about to be finalized. *)
Fixpoint reach (name : list N) (n : nat) (x : xdec) (w : fs) : option (xdec * fs) :=
  match d_state (x_dec x), d_nodes (x_dec x), n with
  | _, _, O => None
  | D_FINALIZE, c :: _, S n =>
      if beq (dn_name c) name then Some (x, w) else match trace fe (xstep env cfg x) w with (l, Ok (_, x')) => reach name n x' (last l w) | _ => None end
  | _, _, S n => match trace fe (xstep env cfg x) w with (l, Ok (_, x')) => reach name n x' (last l w) | _ => None end
  end.
Lemma reach_history name n : forall x w x' w', reach name n x w = Some (x', w') -> exists l, history env fe cfg x w l /\ (w' = last l w).
Proof.
  assert (S1 : forall x w l r x1 w', trace fe (xstep env cfg x) w = (l, Ok (r, x1)) -> (exists l', history env fe cfg x1 (last l w) l' /\ w' = last l' (last l w)) ->
     exists l, history env fe cfg x w l /\ w' = last l w).
  { intros x w l r x1 w' T (l' & H & ->). pose proof (trace_passes fe (xstep env cfg x) w) as P. rewrite T in P. cbn [fst snd] in P.
    exists (l ++ l'). split; [eapply history_step; [exact P|exact H]|]. clear. revert w. induction l as [|a l IH]; intros w; [reflexivity|].
    change ((a :: l) ++ l') with (a :: (l ++ l')). rewrite !last_cons. apply IH. }
  induction n as [|n IH]; intros x w x' w' H; [cbn in H; destruct (d_state (x_dec x)), (d_nodes (x_dec x)); discriminate|].
  assert (ST : (match trace fe (xstep env cfg x) w with (l, Ok (_, x1)) => reach name n x1 (last l w) | _ => None end) = Some (x', w') ->
     exists l, history env fe cfg x w l /\ w' = last l w).
  { intros Q. destruct (trace fe (xstep env cfg x) w) as [l [[r x1]|er| |]] eqn:T; try discriminate.
    exact (S1 x w l r x1 w' T (IH _ _ _ _ Q)). }
  cbn [reach] in H. destruct (d_state (x_dec x)); try (apply ST, H). destruct (d_nodes (x_dec x)) as [|d ns]; [apply ST, H|].
  destruct (beq (dn_name d) name); [|apply ST, H]. injection H as <- <-. exists []. split; [constructor|reflexivity].
Qed.
End HRun.

(** The target, number 1, is empty, or (with [again]) has "b" as a link to the seed's file already; the seed, number 4, has the file as "x". *)
Definition seed_file : inode := mkInode (mkAttrs 0x1A4 1000 1000 6000000000 [] false) (BReg [7; 8; 9]).
Definition world1 (again : bool) : fs := mkFs (fun i =>
  match i with
  | 1 => Some (mkInode (plain_attrs false) (BDir (if again then [([98], 3)] else [])))
  | 3 => Some seed_file
  | 4 => Some (mkInode (plain_attrs false) (BDir [([120], 3)]))
  | _ => None
  end) 7.
Definition kernel1 : fenv := mkFenv 0x12 0 0 (fun _ => 77) (fun l => l) true f_next (fun _ _ _ => Some (4, [120])) (fun _ _ _ => Some 4).
(** [uid]: whom the name "joe" stands for here; the archive was made where it was 1000. *)
Definition config1 (uid : N) : xcfg := mkXcfg true false 0 0 (fun n => if beq n joe then Some uid else None) (fun n => if beq n joe then Some uid else None) 10.
Definition about_b (uid : N) (again : bool) : option (xdec * fs) :=
  match xdec_new 0x4000 1 with
  | Ok x => match xput x rt_bytes with Ok x => reach kernel1 envm (config1 uid) [98] 100 (xput_eof x) (world1 again) | _ => None end
  | _ => None
  end.
(** What is seen there. *)
Definition view (b : xdec * fs) :=
  let (x, w) := b in
  match d_state (x_dec x), d_nodes (x_dec x), x_nodes x with
  | D_FINALIZE, n :: _, c :: p :: _ => Some (dn_name n, dn_entry n, x_tmp c, x_fd p, (f_ino w 1, f_ino w 2, f_ino w 3, f_ino w 4), d_ff (x_dec x))
  | _, _, _ => None
  end.
Definition tmp_b : list N := [46; 35; 98; 56; 48; 48; 48; 48; 48; 48; 48; 48; 48; 48; 48; 48; 48; 48; 48].
Definition left_b : list N := [46; 35; 98; 57; 48; 48; 48; 48; 48; 48; 48; 48; 48; 48; 48; 48; 48; 48; 48].
Definition meta_b : meta := mkMeta 0x81A4 0 1000 1000 6000000000 (Some joe) (Some joe) [] [mkAclEnt 1000 (Some joe) 4] [] 4 UINT64_MAX UINT64_MAX UINT64_MAX UINT64_MAX [] [] None None None.
Definition entry_b : dentry := mkDentry meta_b None None (Some 3).
Definition ents_b (again : bool) : list (list N * N) := (tmp_b, 8) :: ([97], 7) :: (if again then [([98], 3)] else []).

Definition what_b (again : bool) := ([98], Some entry_b, Some tmp_b, Some 1,
    (Some (mkInode (mkAttrs 0x1A4 0 0 77 [] false) (BDir (ents_b again))), None : option inode, Some seed_file, Some (mkInode (plain_attrs false) (BDir [([120], 3)]))), 805306894).
Lemma view_finishing again x w : view (x, w) = Some (what_b again) -> finishing x w 1 (fun n => get n (ents_b again)) [98] tmp_b entry_b /\
  d_ff (x_dec x) = 805306894 /\ f_ino w 3 = Some seed_file.
Proof.
  cbn [view]. unfold what_b. intros V. destruct (d_state (x_dec x)); try discriminate V. destruct (d_nodes (x_dec x)) as [|n ns] eqn:En; [discriminate V|].
  destruct (x_nodes x) as [|c [|p up]] eqn:Ex; try discriminate V. injection V as V1 V2 V3 V4 V5 _ V6 _ V7.
  split; [|split; [exact V7|exact V6]].
  unfold finishing. split; [exists n, ns, c, p, up; auto 10|]. split; [discriminate|].
  assert (IC : forall s, s <> [] -> forallb (fun c => negb (c =? 0) && negb (c =? 47))%bool s = true -> s <> [46] -> s <> [46; 46] -> is_component s).
  { clear. intros s H1 H2 H3 H4. rewrite forallb_forall in H2. unfold is_component. repeat split; try assumption; intros Q; apply H2 in Q; discriminate Q. }
  split; [apply IC; try discriminate; reflexivity|]. split; [apply IC; try discriminate; reflexivity|]. split; [eexists; reflexivity|]. split; [discriminate|].
  split; [do 2 eexists; split; [exact V5|reflexivity]|].
  intros i G. destruct again; cbn in G; [|discriminate G]. injection G as <-. do 2 eexists. split; [exact V6|]. intros es Q; discriminate Q.
Qed.
Lemma view_b uid again : uid = 1000 \/ uid = 2000 -> option_map view (about_b uid again) = Some (Some (what_b again)).
Proof. intros [-> | ->]; destruct again; vm_compute; reflexivity. Qed.
Lemma about_b_history uid again x w : about_b uid again = Some (x, w) ->
  exists x0 l, xdec_new 0x4000 1 = Ok x0 /\ history envm kernel1 (config1 uid) x0 (world1 again) l /\ w = last l (world1 again).
Proof.
  unfold about_b. destruct (xdec_new 0x4000 1) as [x0|e| |]; try (intros A; discriminate A). destruct (xput x0 rt_bytes) as [x2|e| |] eqn:P; try (intros A; discriminate A).
  intros A. destruct (reach_history kernel1 envm (config1 uid) _ _ _ _ _ _ A) as (l & H & E). exists x0, l. split; [reflexivity|]. split; [|exact E].
  eapply history_put; [exact P|]. apply history_eof, H.
Qed.

(** Extraction of the archive of Properties_RoundTrip.v gets there. *)
Lemma finishing_b uid again : uid = 1000 \/ uid = 2000 -> exists x w, about_b uid again = Some (x, w) /\ finishing x w 1 (fun n => get n (ents_b again)) [98] tmp_b entry_b /\
  d_ff (x_dec x) = 805306894 /\ f_ino w 3 = Some seed_file /\
  (exists x0 l, xdec_new 0x4000 1 = Ok x0 /\ history envm kernel1 (config1 uid) x0 (world1 again) l /\ w = last l (world1 again)).
Proof.
  intros U. pose proof (view_b uid again U) as V. pose proof (about_b_history uid again) as H. destruct (about_b uid again) as [[x w]|]; [|discriminate V].
  exists x, w. split; [reflexivity|]. unfold option_map in V. assert (V1 : view (x, w) = Some (what_b again)) by (injection V as V; exact V).
  destruct (view_finishing again x w V1) as (A & B & C). split; [exact A|]. split; [exact B|]. split; [exact C|]. exact (H x w eq_refl).
Qed.

(** What is done, and what is in the directory then. *)
Definition outcome (uid : N) (again : bool) : option (bool * option inode * option inode * N) :=
  match about_b uid again with
  | Some (x, w) => match htrace kernel1 (try_hardlink (config1 uid) true 4 [120] x) w with
                   | (l, Ok (b, _)) => Some (b, f_ino (last l w) 1, f_ino (last l w) 3, len l)
                   | _ => None end
  | None => None
  end.
Lemma outcome_new uid : uid = 1000 \/ uid = 2000 ->
  outcome uid false = Some (true, Some (mkInode (mkAttrs 0x1A4 0 0 77 [] false) (BDir [([98], 3); ([97], 7)])), Some seed_file, 3).
Proof. intros [-> | ->]; vm_compute; reflexivity. Qed.
Lemma outcome_again : outcome 1000 true = Some (true, Some (mkInode (mkAttrs 0x1A4 0 0 77 [] false) (BDir [(left_b, 3); ([97], 7); ([98], 3)])), Some seed_file, 6).
Proof. vm_compute. reflexivity. Qed.
Lemma outcome_run uid again b i1 i3 k x w : outcome uid again = Some (b, i1, i3, k) -> about_b uid again = Some (x, w) ->
  exists l x', hpasses kernel1 (try_hardlink (config1 uid) true 4 [120] x) w l (Some (Ok (b, x'))) /\ f_ino (last l w) 1 = i1 /\ f_ino (last l w) 3 = i3 /\ len l = k.
Proof.
  unfold outcome. intros O A. rewrite A in O. clear A. pose proof (htrace_passes kernel1 (try_hardlink (config1 uid) true 4 [120] x) w) as P.
  destruct (htrace kernel1 (try_hardlink (config1 uid) true 4 [120] x) w) as [l [[b' x']|er| |]]; try discriminate O. cbn [fst snd] in P.
  injection O as -> <- <- <-. exists l, x'. auto.
Qed.

(** "b" is a link to the seed's "x", and the temporary file has gone. *)
Example hardlink_case :
  exists x w l x', finishing x w 1 (fun n => get n (ents_b false)) [98] tmp_b entry_b /\ f_ino w 3 = Some seed_file /\
  (exists x0 l, xdec_new 0x4000 1 = Ok x0 /\ history envm kernel1 (config1 1000) x0 (world1 false) l /\ w = last l (world1 false)) /\
  hpasses kernel1 (try_hardlink (config1 1000) true 4 [120] x) w l (Some (Ok (true, x'))) /\
  option_map i_body (f_ino (last l w) 1) = Some (BDir [([98], 3); ([97], 7)]) /\ f_ino (last l w) 3 = Some seed_file.
Proof.
  destruct (finishing_b 1000 false (or_introl eq_refl)) as (x & w & A & F & _ & S & H).
  destruct (outcome_run _ _ _ _ _ _ _ _ (outcome_new 1000 (or_introl eq_refl)) A) as (l & x' & P & E1 & E3 & _).
  exists x, w, l, x'. rewrite E1, E3. auto 10.
Qed.

(** C56 is not true if it is to leave no temporary file: if the name was a link to the seed's file already, as after an extraction with the same seed
    before, then the temporary link that shall replace it is renamed to a name of the same file, which does nothing, and stays. *)
Theorem hardlink_leaves_nothing_refuted :
  ~ (forall fe cfg enabled root path x w dir f name tmp e l x', finishing x w dir f name tmp e ->
     hpasses fe (try_hardlink cfg enabled root path x) w l (Some (Ok (true, x'))) ->
     forall g, lists (last l w) dir g -> forall m, temporary m -> f m = None -> g m = None).
Proof.
  intros H. destruct (finishing_b 1000 true (or_introl eq_refl)) as (x & w & A & F & _).
  destruct (outcome_run _ _ _ _ _ _ _ _ outcome_again A) as (l & x' & P & E1 & _).
  specialize (H _ _ _ _ _ _ _ _ _ _ _ _ _ _ F P (fun n => get n [(left_b, 3); ([97], 7); ([98], 3)])).
  assert (L : lists (last l w) 1 (fun n => get n [(left_b, 3); ([97], 7); ([98], 3)])) by (do 2 eexists; split; [exact E1|reflexivity]).
  specialize (H L left_b (ex_intro _ _ eq_refl) eq_refl). discriminate H.
Qed.
Print Assumptions hardlink_leaves_nothing_refuted.

(** C56 is not true if the link is to have the owner that extraction would give: the numbers are compared, but not the names, nor is the shift
    considered. Here the archive's user "joe" has the number 2000, and what "b" leads to belongs to 1000, as it did where the archive was made. *)
Theorem hardlink_owner_refuted :
  ~ (forall fe cfg enabled root path x w dir f name tmp e l x', finishing x w dir f name tmp e ->
     hpasses fe (try_hardlink cfg enabled root path x) w l (Some (Ok (true, x'))) ->
     forall g i nd, lists (last l w) dir g -> g name = Some i -> f_ino (last l w) i = Some nd -> attrs_ok (d_ff (x_dec x)) cfg (dt_meta e) (i_attrs nd)).
Proof.
  intros H. destruct (finishing_b 2000 false (or_intror eq_refl)) as (x & w & A & F & Ff & _).
  destruct (outcome_run _ _ _ _ _ _ _ _ (outcome_new 2000 (or_intror eq_refl)) A) as (l & x' & P & E1 & E3 & _).
  assert (L : lists (last l w) 1 (fun n => get n [([98], 3); ([97], 7)])) by (do 2 eexists; split; [exact E1|reflexivity]).
  destruct (H _ _ _ _ _ _ _ _ _ _ _ _ _ _ F P _ 3 seed_file L eq_refl E3) as (K & _). rewrite Ff in K. destruct (K eq_refl) as [K1 _].
  unfold owner_is in K1. vm_compute in K1. discriminate K1.
Qed.
Print Assumptions hardlink_owner_refuted.

(** Two files with the same digest and a chunk with the same ID as another file's digest, and a directory: the first file is found. *)
Definition digest_a : list N := repeat 0xAB 32.
Definition digest_c : list N := repeat 0xCD 32.
Definition seen : list event :=
  [Finished 0x41ED (Ok digest_a) [100] None; Finished 0x81A4 (Ok digest_a) [100; 47; 120] None; Finished 0x81A4 (Ok digest_a) [121] None;
   Chunked digest_c (mkLoc DES_PAYLOAD (Some [122]) 5 7 None UINT64_MAX 0 0 false UINT64_MAX UINT64_MAX []) None; Finished 0x81A4 (Ok digest_c) [122] None].
Example hardlink_target_case :
  Forall event_ok seen /\ id_ok digest_a = true /\ id_ok digest_c = true /\
  get_hardlink_target true digest_a (cached true seen) = Ok (Some [100; 47; 120]) /\ get_hardlink_target true digest_c (cached true seen) = Err ENOENT /\
  get_hardlink_target true (repeat 1 32) (cached true seen) = Err ENOENT.
Proof.
  split; [|repeat split; vm_compute; reflexivity].
  assert (B : forall v, Ok digest_a = Ok v \/ Ok digest_c = Ok v -> id_ok v = true) by (intros v [E | E]; injection E as <-; reflexivity).
  repeat apply Forall_cons; try apply Forall_nil; cbn [event_ok]; try (intros v E; apply B; auto; fail).
  split; [reflexivity|]. split; [|split].
  - constructor; cbn; unfold u64, UINT64_MAX, two64; try lia.
    + unfold kind, DES_PAYLOAD. lia.
    + intros p E. injection E as <-. split; [discriminate|]. intros q. discriminate.
    + intros Q. discriminate Q.
  - constructor; cbn; unfold u64, UINT64_MAX, two64; try lia. constructor.
  - discriminate.
Qed.
