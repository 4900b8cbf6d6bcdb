(** C21, C22, C23, C44, C45: decoding of arbitrary input. *)
From Verif Require Import Base FeatureFlags ArchiveBase Decoder DecoderSpec DecoderProofs DecoderProofs2 DecoderProofs3
  DecoderProofs4 DecoderProofs5 DecoderProofs6 DecoderProofs7 DecoderProofs8.
Local Open Scope N_scope.

(** C23. All complete uses of a decoder on the same input show the same files, meta data and contents in the same order
    and have the same outcome, however the input is cut into pieces and whenever the decoder is stepped. *)
Theorem decode_feeding_independent :
  forall env mode d i o1 r1 o2 r2, decoder_new mode = Ok d ->
  drun env d i o1 r1 -> drun env d i o2 r2 -> o1 = o2 /\ r1 = r2.
Proof. exact drun_det. Qed.
Print Assumptions decode_feeding_independent.

(** C23. And what an incomplete use has shown is the beginning of what all complete uses show; every incomplete use can
    be completed. *)
Theorem decode_so_far :
  forall env mode d i o d' i', decoder_new mode = Ok d -> duse env d i o d' i' ->
  exists o2 r, drun env d' i' o2 r /\ forall o1 r1, drun env d i o1 r1 -> o1 = o ++ o2 /\ r1 = r.
Proof.
  intros env mode d i o d' i' H U. destruct (duse_complete _ _ _ _ _ _ _ H U) as (o2 & r & R & R' & _).
  exists o2, r. split; [exact R|]. intros o1 r1 X. eapply drun_det; eauto.
Qed.
Print Assumptions decode_so_far.

(** C44. Any input whatsoever is decoded up to an outcome, which is never a crash, under no schedule. *)
Theorem decode_never_crashes :
  forall env mode d i, decoder_new mode = Ok d ->
  (exists o r, drun env d i o r) /\ (forall o r, drun env d i o r -> r <> Crashed) /\
  (forall o d' i', duse env d i o d' i' -> decoder_step env d' <> Abort /\ decoder_step env d' <> UB).
Proof.
  intros env mode d i H. destruct (drun_total env mode d i H) as (o & r & R & Hr). split; [eauto|]. split.
  - intros o' r' R'. destruct (drun_det _ _ _ _ _ _ _ _ H R R') as [_ <-]. exact Hr.
  - intros o' d' i' U. destruct (duse_inv _ _ _ _ _ _ U (Inv_new _ _ H)) as (A & _ & _).
    { rewrite (new_eof _ _ H). discriminate. }
    pose proof (decoder_step_good env d' A) as G. destruct (decoder_step env d') as [[? ?]| | |]; try contradiction; split; discriminate.
Qed.
Print Assumptions decode_never_crashes.

(** C22. If decoding [a] succeeds and leaves [rest] unused, then no proper prefix of the used part decodes successfully. *)
Theorem truncated_archive_fails :
  forall env mode d a o rest, S_ISDIR mode = true -> decoder_new mode = Ok d -> drun env d a o (Finished rest) ->
  exists used, a = used ++ rest /\
  forall p q, used = p ++ q -> q <> [] -> forall o' r', drun env d p o' r' ->
  r' = Starved \/ exists e, r' = Failed e.
Proof.
  intros env mode d a o rest D H R. destruct (drun_rest _ _ _ _ _ _ H R) as [used ->]. exists used. split; [reflexivity|].
  intros p q -> Hq o' r' R'. destruct r' as [rest'|e| |]; eauto.
  - exfalso. rewrite <- app_assoc in R. destruct (drun_truncated _ _ _ _ _ _ _ _ _ D H R R') as [_ E].
    apply (f_equal len) in E. rewrite !len_app in E. apply Hq, len_zero_nil. lia.
  - exfalso. destruct (decode_never_crashes env mode d p H) as (_ & X & _). eapply X; eauto.
Qed.
Print Assumptions truncated_archive_fails.

(** C45. All that a decoder for a directory ever shows, on any input, is a beginning of what a valid directory tree looks
    like, and all of it if it reports success. *)
Theorem decode_valid_tree :
  forall env mode d i o r, S_ISDIR mode = true -> decoder_new mode = Ok d -> drun env d i o r ->
  exists m ents more, valid_tree (TDir m ents) /\ tree_obs [] (TDir m ents) = o ++ more /\
    (forall rest, r = Finished rest -> more = []).
Proof. exact drun_tree. Qed.
Print Assumptions decode_valid_tree.

(** C45. A decoder for a file or block device passes on its input and always succeeds. *)
Theorem decode_blob :
  forall env mode d i o r, S_ISDIR mode = false -> decoder_new mode = Ok d -> drun env d i o r ->
  o = map OByte i /\ r = Finished [].
Proof. exact drun_blob. Qed.
Print Assumptions decode_blob.

(** C21. Every path the decoder works on, on any input, consists of less than 64 names, each of which denotes an entry of
    the directory it is used in. *)
Theorem decode_paths_partial :
  forall env mode d i o r, decoder_new mode = Ok d -> drun env d i o r ->
  forall x p, In x o -> obs_path x = Some p -> len p < 64 /\ Forall is_component p.
Proof.
  intros env mode d i o r H R x p Hx Hp. assert (HI := Inv_new _ _ H).
  apply drun_erun in R; [|exact HI|rewrite (new_eof _ _ H); discriminate].
  apply erun_depth in R; [|apply Inv_full, HI]. rewrite Forall_forall in R. exact (R x Hx p Hp).
Qed.
Print Assumptions decode_paths_partial.

(** * A case: a directory with a file "a" of two bytes and an empty file "b" *)
Definition ob (t : N) (b : list N) : list N := le64 (16 + len b) ++ le64 t ++ b.
Definition ent (ff mode : N) : list N := ob F_ENTRY (le64 ff ++ le64 mode ++ le64 0 ++ le64 0 ++ le64 0 ++ le64 0).
Definition pay (b : list N) : list N := le64 (16 + len b) ++ le64 F_PAYLOAD ++ b.
Definition bye (n off : N) : list N :=
  ob F_GOODBYE (repeat 0 (N.to_nat (24 * n)) ++ le64 off ++ le64 (40 + 24 * n) ++ le64 F_GOODBYE_TAIL_MARKER).
Definition arch (n1 n2 : list N) : list N :=
  let ff := N.lor WITH_PERMISSIONS SHA512_256 in
  let a := ent ff 0x41ED ++ ob F_FILENAME (n1 ++ [0]) ++ ent ff 0x81A4 ++ pay [7; 8] ++
           ob F_FILENAME (n2 ++ [0]) ++ ent ff 0x81A4 ++ pay [] in
  a ++ bye 2 (len a).
Definition envx := mkDenv UINT64_MAX UINT64_MAX.

(** Feeds everything and steps until the end. *)
Fixpoint exec (fuel : nat) (env : denv) (d : dec) : list obs * option outcome :=
  match fuel with
  | O => ([], None)
  | S fuel =>
      match decoder_step env d with
      | Ok (R_FINISHED, d') => ([], Some (Finished (d_buf d')))
      | Ok (R_REQUEST, _) => ([], Some Starved)
      | Ok (x, d') => let '(o, r) := exec fuel env d' in (observe x d' ++ o, r)
      | Err e => ([], Some (Failed e))
      | _ => ([], Some Crashed)
      end
  end.
Lemma exec_drun fuel env : forall d o r, d_eof d = true -> Inv d -> exec fuel env d = (o, Some r) -> drun env d [] o r.
Proof.
  intros d o r He HI H. apply erun_drun; [|exact HI|exact He]. clear He HI. revert d o r H.
  induction fuel as [|fuel IH]; [discriminate|]. cbn [exec]. intros d o r.
  destruct (decoder_step env d) as [[x d']|e| |] eqn:E.
  - destruct x; [| ((destruct (exec fuel env d') as [o' r'] eqn:X; intros Q; injection Q as Q1 Q2;
      subst r'; rewrite <- Q1; refine (erun_step env d _ d' o' r E _ _ _); [discriminate|discriminate|apply IH; exact X])) .. |].
    + intros Q; injection Q as <- <-. eapply erun_starved; eauto.
    + intros Q; injection Q as <- <-. eapply erun_finished; eauto.
  - intros Q; injection Q as <- <-. eapply erun_failed; eauto.
  - intros Q; injection Q as <- <-. apply erun_crashed; auto.
  - intros Q; injection Q as <- <-. apply erun_crashed; auto.
Qed.
Definition decode (env : denv) (mode : N) (i : list N) : list obs * option outcome :=
  match decoder_new mode with
  | Ok d => exec (S (length i)) env (full d i)
  | _ => ([], None)
  end.
Lemma decode_drun env mode i o r : decode env mode i = (o, Some r) ->
  exists d, decoder_new mode = Ok d /\ drun env d i o r.
Proof.
  unfold decode. destruct (decoder_new mode) as [d| | |] eqn:E; try discriminate. intros H. exists d. split; [reflexivity|].
  apply exec_drun in H; [|reflexivity|apply Inv_full, (Inv_new _ _ E)].
  set (d' := mkDec (d_state d) (d_ff d) (d_nodes d) (d_buf d ++ i) (d_eof d) (d_aoff d) (d_poff d) (d_step d) (d_bound d)).
  assert (R' : drun env d' [] o r). { apply drun_eof. exact H. }
  replace i with (i ++ []) by apply app_nil_r. eapply drun_put; [|exact R'].
  unfold decoder_put_data. destruct (N.eqb_spec (len i) 0) as [Q | Q].
  - apply len_zero_nil in Q. subst i. unfold d'. rewrite app_nil_r. destruct d; reflexivity.
  - unfold d'. rewrite (new_eof _ _ E). reflexivity.
Qed.

Example decode_case :
  exists d m1 m2 m3, decoder_new 0x4000 = Ok d /\
    drun envx d (arch [97] [98] ++ [5]) (tree_obs [] (TDir m1 [([97], TReg m2 [7; 8]); ([98], TReg m3 [])])) (Finished [5]).
Proof.
  destruct (decode_drun envx 0x4000 (arch [97] [98] ++ [5]) (fst (decode envx 0x4000 (arch [97] [98] ++ [5]))) (Finished [5])) as (d & H & R); [vm_compute; reflexivity|].
  exists d. do 3 eexists. split; [exact H|].
  match goal with |- drun _ _ _ ?x _ => replace x with (fst (decode envx 0x4000 (arch [97] [98] ++ [5]))) end; [exact R|].
  vm_compute. reflexivity.
Qed.
Example truncated_case :
  exists d, decoder_new 0x4000 = Ok d /\ exists o, drun envx d (takeN 300 (arch [97] [98])) o Starved.
Proof.
  edestruct (decode_drun envx 0x4000 (takeN 300 (arch [97] [98]))) as (d & H & R).
  { rewrite (surjective_pairing (decode _ _ _)). f_equal. vm_compute. reflexivity. }
  eauto.
Qed.
Example blob_case : exists d, decoder_new 0x8000 = Ok d /\ drun envx d [1; 2; 3] (map OByte [1; 2; 3]) (Finished []).
Proof. apply decode_drun. vm_compute. reflexivity. Qed.

(** C21 (finding). The names in a directory need not be in order, nor distinct, nor fit a file system's limit of 255
    bytes: all of these decode successfully. *)
Theorem decode_names_refuted :
  (exists d o, decoder_new 0x4000 = Ok d /\ drun envx d (arch [97] [97]) o (Finished [])) /\
  (exists d o, decoder_new 0x4000 = Ok d /\ drun envx d (arch [98] [97]) o (Finished [])) /\
  (exists d o, decoder_new 0x4000 = Ok d /\ drun envx d (arch (repeat 97 300) [98]) o (Finished [])).
Proof.
  assert (X : forall i, snd (decode envx 0x4000 i) = Some (Finished []) ->
     exists d o, decoder_new 0x4000 = Ok d /\ drun envx d i o (Finished [])).
  { intros i H. destruct (decode_drun envx 0x4000 i (fst (decode envx 0x4000 i)) (Finished [])) as (d & A & B); [|eauto].
    rewrite <- H. apply surjective_pairing. }
  split; [|split]; apply X; vm_compute; reflexivity.
Qed.
Print Assumptions decode_names_refuted.

(** Finding. A decoder whose input has ended in the middle of an object doesn't fail, it asks for more forever: this is
    what [Starved] stands for. *)
Theorem truncated_error_refuted :
  exists d o, decoder_new 0x4000 = Ok d /\ drun envx d (takeN 100 (arch [97] [98])) o Starved.
Proof.
  destruct (decode_drun envx 0x4000 (takeN 100 (arch [97] [98])) (fst (decode envx 0x4000 (takeN 100 (arch [97] [98])))) Starved) as (d & A & B); [vm_compute; reflexivity|]. eauto.
Qed.
Print Assumptions truncated_error_refuted.
