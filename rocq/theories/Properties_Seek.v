(** C46 and C48: seeking to paths in an archive. *)
From Verif Require Import Base FeatureFlags FeatureFlagsSpec FeatureFlagsProofs ArchiveBase Bst Decoder DecoderSpec DecoderProofs4
  Encoder EncoderSpec EncoderProofs EncoderProofs2 EncoderProofs3 Properties_Encoder ArchiveSpec EncoderProofs5 RoundTrip1 RoundTrip2 RoundTrip3 RoundTrip4 RoundTrip5 DecoderProofs7 Properties_Decoder Properties_RoundTrip
  Seek SeekSpec SeekProofs1 SeekProofs3 SeekProofs4 SeekProofs5 SeekProofs6.
Local Open Scope N_scope.

(** C48. Take the archive [o] of a file tree [f], what is stored of it being [t] (ArchiveSpec.v), and a new decoder that has
    been told the size of the archive. Seek to any path, let the seek come to its end, seek to another path, and so on, the
    caller passing the archive in whatever pieces it likes: each seek that is accepted finds the file at the path, and then the
    decoder shows that file, with everything in it if it is a directory, and nothing else; or it reports that there is none,
    and there is none. The only seek refused is one further down from the file just found; a first seek never is.
    What is missing: seeks after some of a file found has been read. *)
Theorem seek_to_path_partial :
  forall ev f e o env mode s t, configured ev -> qsort_ok (ev_qsort ev) -> storable ev [] f -> S_ISDIR (f_mode f) = true ->
  (forall name, ev_hash ev name < two64) ->
  encoder_new f = Ok e -> eruns ev e o EFinished -> len o < UINT64_MAX - 16 -> stores ev [] f t ->
  (de_expected env = UINT64_MAX \/ de_expected env = ev_ff ev) -> S_ISDIR mode = true -> sdec_new mode = Ok s ->
  forall paths, seeks env (ev_hash ev) o t paths None (set_archive_size s (len o)).
Proof.
  intros ev f e o env mode s t C Q St D Hh H R L S Ex Dm Hs paths.
  destruct (archive_stored ev f e o C Q St D H R) as (t' & S' & A & Dp & DT). rewrite (stores_unique ev _ _ _ _ _ (Nat.lt_succ_diag_r _) St S' S) in *.
  destruct (stores_dir_dir ev _ _ _ S St D) as (m & ents & E).
  assert (Id : is_dir t = true) by (rewrite E; reflexivity).
  assert (DN : SeekSpec.distinct_names t) by (unfold SeekSpec.distinct_names; intros p0 m0 ents0 AP; exact (stores_distinct ev [] f t S p0 m0 ents0 AP)).
  destruct (fresh_knows env ev o t DT Dp L DN Id mode s Dm Hs A (ff_accepted env ev C Ex)) as (K1 & K2 & K3).
  apply (seeks_any env ev o t DT Dp L Hh DN Id paths); [exact K1|rewrite K3; exact I|auto|discriminate].
Qed.
Print Assumptions seek_to_path_partial.

(** C46, the property as it stands: one seek, on a new decoder that has been told the size of the archive. *)
Theorem seek_to_path :
  forall ev f e o env mode s t, configured ev -> qsort_ok (ev_qsort ev) -> storable ev [] f -> S_ISDIR (f_mode f) = true ->
  (forall name, ev_hash ev name < two64) ->
  encoder_new f = Ok e -> eruns ev e o EFinished -> len o < UINT64_MAX - 16 -> stores ev [] f t ->
  (de_expected env = UINT64_MAX \/ de_expected env = ev_ff ev) -> S_ISDIR mode = true -> sdec_new mode = Ok s ->
  forall path, exists s', seek_path (ev_hash ev) (set_archive_size s (len o)) path = Ok s' /\
    forall pos, leads env (ev_hash ev) o (seek_result env (ev_hash ev) o t (names_of path)) s' pos.
Proof.
  intros ev f e o env mode s t C Q St D Hh H R L S Ex Dm Hs path.
  destruct (seek_to_path_partial ev f e o env mode s t C Q St D Hh H R L S Ex Dm Hs [path]) as [(s' & E & G) | (_ & l & c & cs & K & _)]; [|discriminate].
  exists s'. split; [exact E|]. intros pos. eapply leads_mono; [|exact (G pos)]. intros r s2 pos2 [X _]. exact X.
Qed.
Print Assumptions seek_to_path.

(** * A case *)
(** An encoder with a hash that gives all names of one letter the same value. *)
Definition sk_env : eenv := mkEenv (ev_ff rt_env) (ev_gran rt_env) 0 0 users users (fun n => len n mod two64) (fun _ _ _ => false) isort.
Definition sk_tree : fnode := FDir (rt_stat 0x41ED 0 5 7 [] [])
  [([98], FReg (rt_stat 0x81A4 1000 6 8 [] acl1) 3 [7; 8; 9; 10]);
   ([97], FDir (rt_stat 0x41ED 1001 0 0 [] []) [([120], FReg (rt_stat 0x81A4 0 1 1 [] []) 2 [1; 2]); ([121], FDir (rt_stat 0x41ED 0 1 1 [] []) [])]);
   ([99], FLnk (rt_stat 0xA1FF 0 1 1 [] []) [98])].
Lemma acl_same a : acl_ok rt_env a -> acl_ok sk_env a.
Proof. intros H. destruct H. constructor; assumption. Qed.
Lemma stat_same st : stat_ok rt_env st -> stat_ok sk_env st.
Proof. intros H. destruct H. constructor; try assumption; apply acl_same; assumption. Qed.
Lemma sk_storable : storable sk_env [] sk_tree.
Proof.
  assert (So : forall mode uid sec nsec, mode < 65536 -> uid < two32 -> (0 <= sec < 1000)%Z -> (0 <= nsec < 1000000000)%Z ->
     stat_ok sk_env (rt_stat mode uid sec nsec [] [])).
  { intros. apply stat_same, (rt_stat_ok mode uid sec nsec); auto using acl0_ok; constructor. }
  assert (Cm : forall n, In n [97; 98; 99; 120; 121] -> is_component [n]).
  { intros n H. split; [discriminate|]. cbn in H |- *. repeat split; intuition (subst; discriminate). }
  apply storable_dir; [apply So; vm_compute; repeat split; congruence|reflexivity|nodup|].
  intros e He _. cbn in He. destruct He as [<- | [<- | [<- | []]]]; (split; [apply Cm; cbn; tauto|]); cbn [fst snd app].
  - apply storable_reg; [|reflexivity]. apply stat_same, (rt_stat_ok 0x81A4); auto using acl1_ok; try (vm_compute; repeat split; congruence); constructor.
  - apply storable_dir; [apply So; vm_compute; repeat split; congruence|reflexivity|nodup|].
    intros e He _. cbn in He. destruct He as [<- | [<- | []]]; (split; [apply Cm; cbn; tauto|]); cbn [fst snd].
    + apply storable_reg; [apply So; vm_compute; repeat split; congruence|reflexivity].
    + apply storable_dir; [apply So; vm_compute; repeat split; congruence|reflexivity|nodup|]. intros e He. destruct He.
  - apply storable_lnk; [apply So; vm_compute; repeat split; congruence|reflexivity|discriminate|intros [X | []]; discriminate|vm_compute; discriminate].
Qed.
Definition sk_bytes : list N := fst (encode sk_env sk_tree).
Example seek_case :
  exists e s t, configured sk_env /\ qsort_ok (ev_qsort sk_env) /\ storable sk_env [] sk_tree /\ S_ISDIR (f_mode sk_tree) = true /\
    (forall name, ev_hash sk_env name < two64) /\ encoder_new sk_tree = Ok e /\ eruns sk_env e sk_bytes EFinished /\ len sk_bytes < UINT64_MAX - 16 /\
    stores sk_env [] sk_tree t /\ sdec_new 0x4000 = Ok s.
Proof.
  destruct (encoder_new sk_tree) as [e| | |] eqn:H; try discriminate.
  assert (Cf : configured sk_env) by (exact (env_of_configured rt_flags users ltac:(vm_compute; exact I))).
  assert (R : eruns sk_env e sk_bytes EFinished).
  { assert (E : snd (encode sk_env sk_tree) = Ok (match snd (encode sk_env sk_tree) with Ok x => x | _ => (0, ecache0) end)) by (vm_compute; reflexivity).
    unfold sk_bytes. eapply encode_runs; [exact H|]. rewrite <- E. apply surjective_pairing. }
  destruct (archive_stored sk_env sk_tree e sk_bytes Cf isort_ok sk_storable eq_refl H R) as (t & S & A & _ & _).
  destruct (sdec_new 0x4000) as [s| | |] eqn:Hs; try discriminate.
  exists e, s, t. split; [exact Cf|]. split; [exact isort_ok|]. split; [exact sk_storable|]. split; [reflexivity|].
  split; [intros name; apply N.mod_lt; discriminate|]. split; [reflexivity|]. split; [exact R|]. split; [vm_compute; reflexivity|]. split; [exact S|]. reflexivity.
Qed.

(** A caller who passes all the rest of the archive whenever data is requested. [reads] stops when there is something else to
    report than steps, requests and seeks. *)
Fixpoint reads (n : nat) (s : sdec) (pos : N) : res (sret * sdec * N) :=
  match n with
  | O => Abort
  | S n =>
      let! (r, s) := sstep envx (ev_hash sk_env) s in
      match r with
      | SR R_STEP => reads n s pos
      | SR R_REQUEST => let! s := sput s (dropN pos sk_bytes) in reads n s (len sk_bytes)
      | R_SEEK => let! off := get_seek_offset s in reads n s off
      | _ => Ok (r, s, pos)
      end
  end.
Definition sk_new : res sdec := let! s := sdec_new 0x4000 in Ok (set_archive_size s (len sk_bytes)).
Definition goes (s : sdec) (path : list N) : res (sret * sdec * N) := let! s := seek_path (ev_hash sk_env) s path in reads 100 s 0.
Definition result (x : res (sret * sdec * N)) : option sret := match x with Ok (r, _, _) => Some r | _ => None end.

(** "//a/x" is there, "a/z" isn't, one after the other. *)
Example seek_runs :
  result (let! s := sk_new in goes s [47; 47; 97; 47; 120]) = Some R_FOUND /\
  result (let! s := sk_new in let! (_, s, _) := goes s [47; 47; 97; 47; 120] in goes s [97; 47; 122]) = Some R_NOT_FOUND.
Proof. split; vm_compute; reflexivity. Qed.

(** * Seeks that are refused, or worse *)
(** A directory just found: its contents can't be sought. *)
Theorem seek_below_found_refuted :
  exists s s2 pos, sk_new = Ok s /\ goes s [97] = Ok (R_FOUND, s2, pos) /\ seek_path (ev_hash sk_env) s2 [97; 47; 120] = Err EUNATCH.
Proof. do 3 eexists. split; [vm_compute; reflexivity|]. split; vm_compute; reflexivity. Qed.
Print Assumptions seek_below_found_refuted.
(** [k] more things to report. *)
Fixpoint on (k : nat) (s : sdec) (pos : N) : res (sdec * N) :=
  match k with O => Ok (s, pos) | S k => let! (_, s, pos) := reads 100 s pos in on k s pos end.
(** A directory that has been read up to its end: the table of names was kept, but not where it was. *)
Theorem seek_below_read_refuted :
  exists s s2 pos s3 pos3, sk_new = Ok s /\ goes s [97] = Ok (R_FOUND, s2, pos) /\ on 7 s2 pos = Ok (s3, pos3) /\
    seek_path (ev_hash sk_env) s3 [97; 47; 120] = Err EUNATCH.
Proof. do 5 eexists. split; [vm_compute; reflexivity|]. split; [vm_compute; reflexivity|]. split; vm_compute; reflexivity. Qed.
Print Assumptions seek_below_read_refuted.
(** While the directory is being read it works. *)
Example seek_below_reading :
  result (let! s := sk_new in let! (_, s, pos) := goes s [97] in let! (s, pos) := on 3 s pos in goes s [97; 47; 120]) = Some R_FOUND.
Proof. vm_compute. reflexivity. Qed.
(** The file just found, and the next one in its directory: the program is aborted. *)
Theorem next_of_found_refuted :
  exists s s2 pos, sk_new = Ok s /\ goes s [97] = Ok (R_FOUND, s2, pos) /\ seek_next_sibling (ev_hash sk_env) s2 = Abort.
Proof. do 3 eexists. split; [vm_compute; reflexivity|]. split; vm_compute; reflexivity. Qed.
Print Assumptions next_of_found_refuted.
(** A first step before the first data: no seek is possible until the first entry has been read. *)
Theorem seek_after_step_refuted :
  exists s s2, sk_new = Ok s /\ sstep envx (ev_hash sk_env) s = Ok (SR R_REQUEST, s2) /\ seek_path (ev_hash sk_env) s2 [97] = Err ENODATA.
Proof. do 2 eexists. split; [vm_compute; reflexivity|]. split; vm_compute; reflexivity. Qed.
Print Assumptions seek_after_step_refuted.
