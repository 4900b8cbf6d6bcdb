(** C50, C51: what extraction does to the file system, whatever archive it is fed, whatever goes wrong, whenever it is stopped. *)
From Coq Require Import Permutation.
From Verif Require Import Base FeatureFlags ArchiveBase Decoder DecoderSpec Encoder Properties_Decoder Properties_RoundTrip Fs Extract ExtractSpec ExtractProofs1 ExtractProofs5
  ExtractProofs6.
Local Open Scope N_scope.

(** C50. A directory is extracted to. The input is any sequence of bytes in any pieces, any system call may fail at any time, the process may be
    killed at any time. Then in each state that the file system goes through, whatever isn't one of the directories of the target tree is as it was
    before: outside of the tree nothing is written, created, deleted or changed, and no file inside it is changed in place (it is replaced). *)
Theorem extraction_stays_inside :
  forall env fe cfg w0 b mode x l w i nd, sound_env fe -> sound_fs w0 -> directory w0 b -> S_ISDIR mode = true -> xdec_new mode b = Ok x ->
  history env fe cfg x w0 l -> c_undo cfg = false ->
  In w l -> f_ino w0 i = Some nd -> ~ inside w0 b i -> f_ino w i = Some nd.
Proof.
  intros env fe cfg w0 b mode x l w i nd Hfe Hw Hb Hm Hn Hl Hu Hin Hi Ho.
  destruct (extraction_kept env fe cfg w0 b Hfe Hw mode x l Hn Hm Hb Hl w i nd Hin Hi Ho) as (nd' & A & [-> | [B _]]); [exact A|congruence].
Qed.
Print Assumptions extraction_stays_inside.

(** C50. With --undo-immutable the same, except that the immutable flag may be taken from files that have a link in the tree. *)
Theorem extraction_stays_inside_undo :
  forall env fe cfg w0 b mode x l w i nd, sound_env fe -> sound_fs w0 -> directory w0 b -> S_ISDIR mode = true -> xdec_new mode b = Ok x ->
  history env fe cfg x w0 l ->
  In w l -> f_ino w0 i = Some nd -> ~ inside w0 b i ->
  f_ino w i = Some nd \/ (linked w0 b i /\ f_ino w i = Some (without_imm nd)).
Proof.
  intros env fe cfg w0 b mode x l w i nd Hfe Hw Hb Hm Hn Hl Hin Hi Ho.
  destruct (extraction_kept env fe cfg w0 b Hfe Hw mode x l Hn Hm Hb Hl w i nd Hin Hi Ho) as (nd' & A & [-> | (_ & B & ->)]); auto.
Qed.
Print Assumptions extraction_stays_inside_undo.

(** C51. Once a file that isn't a directory has a name that isn't a temporary one, it is final: neither its contents nor its meta data change
    any more. So, whenever extraction is stopped, what has appeared under its name is what extraction has made of it. *)
Theorem extracted_files_final :
  forall env fe cfg w0 b mode x l l1 w1 l2 w2 i nd, sound_env fe -> sound_fs w0 -> directory w0 b -> S_ISDIR mode = true -> xdec_new mode b = Ok x ->
  history env fe cfg x w0 l -> l = l1 ++ w1 :: l2 -> In w2 l2 -> visible w1 i nd ->
  f_ino w2 i = Some nd \/ (c_undo cfg = true /\ f_ino w2 i = Some (without_imm nd)).
Proof.
  intros env fe cfg w0 b mode x l l1 w1 l2 w2 i nd Hfe Hw Hb Hm Hn Hl El H2 V.
  destruct (extraction_final env fe cfg w0 b Hfe Hw mode x l Hn Hm Hb Hl l1 w1 l2 w2 i nd El H2 V) as (nd' & A & [-> | (B & ->)]); auto.
Qed.
Print Assumptions extracted_files_final.

(** * Cases *)
Section Drive.
Variables (env : denv) (fe : fenv) (cfg : xcfg).
Fixpoint trace {A} (p : prog A) (w : fs) : list fs * res A :=
  match p with
  | Ret r => ([], r)
  | Sys c k => let (x, w1) := fs_do fe w c in let (l, r) := trace (k x) w1 in (w1 :: l, r)
  end.
Lemma trace_passes {A} (p : prog A) : forall w, passes fe p w (fst (trace p w)) (Some (snd (trace p w))).
Proof.
  induction p as [r|c k IH]; intros w; cbn [trace]; [constructor|]. destruct (fs_do fe w c) as [x w1] eqn:E. specialize (IH x w1).
  destruct (trace (k x) w1) as [l r]. cbn [fst snd] in *. econstructor; [|exact IH]. exact (E : result_of fe TNone w c = (x, w1)).
Qed.
(** Steps until the end or an error. *)
Fixpoint drive (n : nat) (x : xdec) (w : fs) : list fs :=
  match n with
  | O => []
  | S n => match trace (xstep env cfg x) w with
           | (l, Ok (R_FINISHED, _)) => l
           | (l, Ok (_, x')) => l ++ drive n x' (last l w)
           | (l, _) => l
           end
  end.
Lemma drive_history n : forall x w, history env fe cfg x w (drive n x w).
Proof.
  induction n as [|n IH]; intros x w; cbn [drive]; [constructor|]. pose proof (trace_passes (xstep env cfg x) w) as H.
  destruct (trace (xstep env cfg x) w) as [l r]. cbn [fst snd] in H.
  assert (Hs : history env fe cfg x w l).
  { clear -H. apply history_stopped. remember (xstep env cfg x) as p eqn:E. clear E. remember (Some r) as o eqn:E. induction H; try (constructor; fail). econstructor; eauto. }
  destruct r as [[r x']|e| |]; auto. destruct r; auto; (eapply history_step; [exact H|apply IH]).
Qed.
(** The archive is fed at once. *)
Definition extract (b : N) (arch : list N) (w : fs) : list fs :=
  match xdec_new 0x4000 b with
  | Ok x => match xput x arch with Ok x => drive 1000 (xput_eof x) w | _ => [] end
  | _ => []
  end.
Lemma extract_history b arch w x : xdec_new 0x4000 b = Ok x -> history env fe cfg x w (extract b arch w).
Proof.
  intros H. unfold extract. rewrite H. destruct (xput x arch) as [x'| | |] eqn:E; [|constructor..]. eapply history_put; [exact E|]. apply history_eof, drive_history.
Qed.
End Drive.

(** In the target, number 1, "a" is a symbolic link to the directory 4 outside, "b" is a file that has another link there, "z" a directory with a
    file. *)
Definition plain_attrs (imm : bool) : attrs := mkAttrs 0x1A4 0 0 0 [] imm.
Definition world0 (imm : bool) : fs := mkFs (fun i =>
  match i with
  | 1 => Some (mkInode (plain_attrs false) (BDir [([97], 2); ([98], 3); ([122], 5)]))
  | 2 => Some (mkInode (mkAttrs 0x1FF 0 0 0 [] false) (BLnk [46; 46; 47; 111]))
  | 3 => Some (mkInode (plain_attrs imm) (BReg [1; 2; 3]))
  | 4 => Some (mkInode (plain_attrs false) (BDir [([120], 3)]))
  | 5 => Some (mkInode (plain_attrs false) (BDir [([121], 6)]))
  | 6 => Some (mkInode (plain_attrs false) (BReg [9]))
  | _ => None
  end) 7.
Definition kernel : fenv := mkFenv 0x12 0 0 (fun _ => 77) (fun l => l) true (fun _ => 0x123456789ABCDEF0) (fun _ _ _ => Some (4, [97])) (fun _ _ _ => Some 4).
Definition config (undo : bool) : xcfg := mkXcfg true undo 0 0 (fun n => if beq n joe then Some 1000 else None) (fun n => if beq n joe then Some 1000 else None) 10.
(** Without ACLs. *)
Definition envm : denv := mkDenv UINT64_MAX (bor [WITH_32BIT_UIDS; WITH_USER_NAMES; WITH_SEC_TIME; WITH_SYMLINKS; WITH_FIFOS; WITH_XATTRS; WITH_PERMISSIONS]).

Lemma world0_entry imm d n i : entry (world0 imm) d n i -> (d = 1 /\ ((n = [97] /\ i = 2) \/ (n = [98] /\ i = 3) \/ (n = [122] /\ i = 5))) \/ (d = 4 /\ n = [120] /\ i = 3) \/ (d = 5 /\ n = [121] /\ i = 6).
Proof.
  intros (a & ents & E & H). unfold world0 in E. cbn [f_ino] in E.
  repeat match goal with H : match ?d with _ => _ end = Some _ |- _ => destruct d; try discriminate end;
  injection E as _ <-; cbn in H; repeat (destruct H as [H | H]; [injection H as <- <-; auto 10|]); destruct H.
Qed.
Lemma world0_sound imm : sound_fs (world0 imm).
Proof.
  split.
  - intros d n i H. apply world0_entry in H.
    assert (C : forall c, c <> 0 -> c <> 47 -> c <> 46 -> is_component [c]) by (intros c A B C; unfold is_component; repeat split; try discriminate; try congruence; intros [Q | []]; congruence).
    destruct H as [(-> & [(-> & ->) | [(-> & ->) | (-> & ->)]]) | [(-> & -> & ->) | (-> & -> & ->)]]; (split; [apply C; discriminate|reflexivity]).
  - intros i H. change (7 <= i) in H. destruct (f_ino (world0 imm) i) as [nd|] eqn:E; [exfalso|reflexivity]. unfold world0 in E. cbn [f_ino] in E.
    repeat match goal with H : match ?d with _ => _ end = Some _ |- _ => destruct d; try discriminate end; lia.
Qed.
Lemma world0_directory imm i : directory (world0 imm) i -> i = 1 \/ i = 4 \/ i = 5.
Proof.
  intros (a & ents & E). unfold world0 in E. cbn [f_ino] in E.
  repeat match goal with H : match ?d with _ => _ end = Some _ |- _ => destruct d; try discriminate end; auto.
Qed.
Lemma world0_inside imm i : inside (world0 imm) 1 i -> i = 1 \/ i = 5.
Proof.
  intros H. induction H as [|d n i H IH E D]; [auto|]. apply world0_entry in E. apply world0_directory in D.
  destruct IH as [-> | ->]; destruct E as [(E & F) | [(E & _) | (_ & _ & F)]]; try discriminate; intuition lia.
Qed.

(** The archive of Properties_RoundTrip.v, a directory with a directory "a", a file "b" and a symbolic link "c", is extracted over this: the link "a"
    becomes a directory without a trace in the directory it pointed to, "b" is replaced and its other link keeps the old contents, "z" is deleted. *)
Example extraction_case :
  exists x l w a, sound_env kernel /\ sound_fs (world0 false) /\ directory (world0 false) 1 /\ S_ISDIR 0x4000 = true /\ xdec_new 0x4000 1 = Ok x /\
  history envm kernel (config false) x (world0 false) l /\ In w l /\
  f_ino w 1 = Some (mkInode a (BDir [([99], 9); ([98], 8); ([97], 7)])) /\ is_dir_at w 7 = true /\
  ~ inside (world0 false) 1 3 /\ ~ inside (world0 false) 1 4 /\
  option_map i_body (f_ino w 8) = Some (BReg [7; 8; 9]) /\ option_map i_body (f_ino w 3) = Some (BReg [1; 2; 3]) /\ option_map i_body (f_ino w 4) = Some (BDir [([120], 3)]).
Proof.
  eexists _, (extract envm kernel (config false) 1 rt_bytes (world0 false)), (last (extract envm kernel (config false) 1 rt_bytes (world0 false)) (world0 false)), _.
  split; [intros l; apply Permutation_refl|]. split; [apply world0_sound|]. split; [do 2 eexists; reflexivity|]. split; [reflexivity|].
  split; [reflexivity|]. split; [apply extract_history; reflexivity|].
  split. { destruct (extract envm kernel (config false) 1 rt_bytes (world0 false)) as [|w l] eqn:E; [vm_compute in E; discriminate|].
    clear E. destruct (@exists_last _ (w :: l)) as (l' & y & ->); [discriminate|]. rewrite last_last. apply in_or_app. right. left. reflexivity. }
  split; [vm_compute; reflexivity|]. split; [vm_compute; reflexivity|].
  split; [intros H; apply world0_inside in H; destruct H; discriminate|]. split; [intros H; apply world0_inside in H; destruct H; discriminate|].
  split; [vm_compute; reflexivity|]. split; vm_compute; reflexivity.
Qed.

Lemma split_at {A} (d : A) n : forall l, (n < length l)%nat -> l = firstn n l ++ nth n l d :: skipn (S n) l.
Proof. induction n as [|n IH]; intros [|x l] H; cbn in *; try lia; [reflexivity|]. f_equal. apply IH. lia. Qed.
(** After 33 of the 51 calls "b" is there under its name, and stays as it is. *)
Example extraction_final_case :
  exists x l1 w1 l2 nd, xdec_new 0x4000 1 = Ok x /\ history envm kernel (config false) x (world0 false) (l1 ++ w1 :: l2) /\
  length l2 = 18%nat /\ visible w1 8 nd /\ i_body nd = BReg [7; 8; 9].
Proof.
  destruct (xdec_new 0x4000 1) as [x| | |] eqn:Hx; try discriminate.
  pose proof (extract_history envm kernel (config false) 1 rt_bytes (world0 false) x Hx) as H.
  rewrite (split_at (world0 false) 32) in H by (vm_compute; lia).
  destruct (f_ino (nth 32 (extract envm kernel (config false) 1 rt_bytes (world0 false)) (world0 false)) 8) as [nd|] eqn:E; [|vm_compute in E; discriminate].
  eexists x, _, _, _, nd. split; [reflexivity|]. split; [exact H|].
  split; [vm_compute; reflexivity|]. vm_compute in E. injection E as <-. split; [|reflexivity]. split; [vm_compute; reflexivity|].
  split; [intros (a & ents & Q); vm_compute in Q; discriminate|].
  exists 1, [98]. split; [|intros [s Q]; discriminate]. do 2 eexists. split; [vm_compute; reflexivity|]. cbn. auto.
Qed.

(** C50 without the exception for --undo-immutable is false: if "b" is immutable, the flag is taken from the file outside, too. *)
Theorem extraction_undo_refuted :
  ~ (forall env fe cfg w0 b mode x l w i nd, sound_env fe -> sound_fs w0 -> directory w0 b -> S_ISDIR mode = true -> xdec_new mode b = Ok x ->
     history env fe cfg x w0 l -> In w l -> f_ino w0 i = Some nd -> ~ inside w0 b i -> f_ino w i = Some nd).
Proof.
  intros H. destruct (xdec_new 0x4000 1) as [x| | |] eqn:Hx; try discriminate.
  pose proof (extract_history envm kernel (config true) 1 rt_bytes (world0 true) x Hx) as HL.
  rewrite (split_at (world0 true) 40) in HL by (vm_compute; lia).
  assert (Hd : directory (world0 true) 1) by (do 2 eexists; reflexivity).
  assert (Q : ~ inside (world0 true) 1 3) by (intros Q; apply world0_inside in Q; destruct Q; discriminate).
  specialize (H envm kernel (config true) (world0 true) 1 0x4000 x _ _ 3 (mkInode (plain_attrs true) (BReg [1; 2; 3])) (fun l => Permutation_refl l) (world0_sound true)
     Hd eq_refl Hx HL (in_elt _ _ _) eq_refl Q).
  vm_compute in H. discriminate.
Qed.
Print Assumptions extraction_undo_refuted.
