(** Writing to a store: what a put leaves behind, whatever fails. *)
From Verif Require Import Base ChunkId ChunkIdProofs Posix PosixProofs ChunkFile Store StoreSpec StoreProofs1 StoreProofs2 StoreProofs3.
Local Open Scope N_scope.
Local Opaque BUFFER_SIZE CHUNK_LIMIT_MAX CHUNK_LIMIT_MIN.


Lemma exec_sys_inv {A} f w c (k : sysret -> prog A) w' a : exec f w (Sys c k) w' a ->
  exists w1 r, sys f w c w1 r /\ exec f w1 (k r) w' a.
Proof. intros H. inversion H; subst; eauto. Qed.

Lemma exec_ret_inv {A} f w (a : A) w' b : exec f w (Ret a) w' b -> w' = w /\ b = a.
Proof. intros H. inversion H; subst; auto. Qed.

Ltac ret H := apply exec_ret_inv in H; destruct H as [-> ->].

(** ** File names *)

Lemma id_ok_format id : id_ok id = true -> length (chunk_id_format id) = 64%nat.
Proof. intros H. rewrite format_length. unfold id_ok, len in H. apply andb_true_iff in H. lia. Qed.

Lemma path_inj root a b s1 s2 : id_ok a = true -> id_ok b = true ->
  chunk_id_format_path root a s1 = chunk_id_format_path root b s2 -> a = b /\ s1 = s2.
Proof.
  intros Ha Hb H. unfold chunk_id_format_path in H. apply app_inv_head in H.
  pose proof (id_ok_format _ Ha) as La. pose proof (id_ok_format _ Hb) as Lb.
  apply app_inj_len in H; [|rewrite !firstn_length; lia]. destruct H as [_ H]. cbn [app] in H.
  assert (chunk_id_format a ++ s1 = chunk_id_format b ++ s2) as H' by congruence.
  apply app_inj_len in H'; [|lia]. destruct H' as [H1 H2]. split; [|exact H2]. apply format_inj; assumption.
Qed.

Definition no_slash (l : list N) : Prop := ~ In 47 l.

Lemma drop_last_app a b : no_slash b -> drop_last_component (b ++ 47 :: a) = a.
Proof.
  induction b as [|x b IH]; intros H; cbn; [reflexivity|]. destruct (x =? 47) eqn:E.
  - apply N.eqb_eq in E. subst x. exfalso. apply H. left. reflexivity.
  - apply IH. intros Hx. apply H. right. exact Hx.
Qed.

Lemma dirname_app a b : no_slash b -> dirname (a ++ 47 :: b) = a.
Proof.
  intros H. unfold dirname. rewrite rev_app_distr. cbn [rev]. rewrite <- app_assoc. cbn [app].
  rewrite drop_last_app; [apply rev_involutive|]. unfold no_slash. rewrite <- in_rev. exact H.
Qed.

Lemma encode_no_slash x : encode_char x <> 47.
Proof.
  unfold encode_char. assert (N.land x 15 < 16) by (change 15 with (N.ones 4); rewrite N.land_ones; apply N.mod_lt; discriminate).
  destruct (N.land x 15 <? 10) eqn:E; lia.
Qed.

Lemma format_no_slash id : no_slash (chunk_id_format id).
Proof.
  intros H. unfold chunk_id_format in H. apply in_flat_map in H. destruct H as (b & _ & [H|[H|[]]]); symmetry in H; revert H; [| ];
    intros H; symmetry in H; exact (encode_no_slash _ H).
Qed.

Lemma hex_loop_no_slash fuel : forall v acc, no_slash acc -> no_slash (hex_loop fuel v acc).
Proof.
  induction fuel as [|fuel IH]; intros v acc H; cbn; [exact H|].
  assert (no_slash (encode_char (N.land v 15) :: acc)) as H'. { intros [Hx|Hx]; [exact (encode_no_slash _ Hx)|exact (H Hx)]. }
  destruct (_ =? 0); auto.
Qed.

Lemma no_slash_app a b : no_slash a -> no_slash b -> no_slash (a ++ b).
Proof. unfold no_slash. intros H1 H2 H. apply in_app_or in H. tauto. Qed.

Lemma no_slash_lit l : forallb (fun x => negb (x =? 47)) l = true -> no_slash l.
Proof. intros H Hin. rewrite forallb_forall in H. specialize (H _ Hin). cbn in H. discriminate. Qed.

Lemma tmp_no_slash v : no_slash (tmp_suffix v).
Proof.
  unfold tmp_suffix. apply no_slash_app; [apply no_slash_lit; reflexivity|]. apply no_slash_app; [|apply no_slash_lit; reflexivity].
  apply hex_loop_no_slash. intros [].
Qed.

Lemma cacnk_no_slash : no_slash cacnk. Proof. apply no_slash_lit. reflexivity. Qed.

(** The directory a chunk's files are in. *)
Definition subdir (root id : list N) : list N := root ++ firstn 4 (chunk_id_format id).

Lemma dirname_path root id s : no_slash s -> dirname (chunk_id_format_path root id s) = subdir root id.
Proof.
  intros H. unfold chunk_id_format_path, subdir. rewrite app_assoc. cbn [app].
  apply (dirname_app (root ++ firstn 4 (chunk_id_format id))). apply no_slash_app; [apply format_no_slash|exact H].
Qed.

Lemma subdir_not_path root a b s : id_ok b = true -> subdir root a <> chunk_id_format_path root b s.
Proof.
  intros Hb H. apply (f_equal (@length N)) in H. unfold subdir, chunk_id_format_path in H. rewrite !app_length in H.
  pose proof (id_ok_format _ Hb) as L. rewrite !firstn_length in H. cbn [length] in H. lia.
Qed.

Lemma root_not_path root b s : id_ok b = true -> root <> chunk_id_format_path root b s.
Proof.
  intros Hb H. apply (f_equal (@length N)) in H. unfold chunk_id_format_path in H. rewrite !app_length in H.
  pose proof (id_ok_format _ Hb) as L. cbn [length] in H. lia.
Qed.

Lemma tmp_not_final v : tmp_suffix v <> [] /\ tmp_suffix v <> cacnk.
Proof.
  split; [discriminate|]. intros H. apply (f_equal (fun l => last l 0)) in H. unfold tmp_suffix in H.
  change ([46] ++ hex v ++ [46; 116; 109; 112]) with ([46] ++ hex v ++ [46; 116; 109] ++ [112]) in H.
  rewrite !app_assoc, last_last in H. discriminate.
Qed.

(** ** Writing *)

(** The descriptor [fd] is open on inode [i] with content [c], positioned at its end. *)
Definition writing (w : world) (fd i : nat) (c : list N) : Prop :=
  nth_error (w_fds w) fd = Some (i, len c) /\ nth_error (w_inodes w) i = Some c.

(** The world after writing through it, the content being [c] now. *)
Definition wrote (w : world) (fd i : nat) (c : list N) : world := set_pos (set_content w i c) fd i (len c).

Lemma wrote_same w fd i c : writing w fd i c -> wrote w fd i c = w.
Proof. intros [H1 H2]. unfold wrote, set_pos, set_content. cbn. rewrite !replace_same by assumption. destruct w; reflexivity. Qed.

Lemma wrote_writing w fd i c c' : writing w fd i c -> writing (wrote w fd i c') fd i c'.
Proof.
  intros [H1 H2]. unfold wrote, set_pos, set_content, writing. cbn. split; apply nth_replace; apply nth_error_Some; congruence.
Qed.

Lemma wrote_wrote w fd i c c' : wrote (wrote w fd i c) fd i c' = wrote w fd i c'.
Proof. unfold wrote, set_pos, set_content. cbn. rewrite !replace_replace. reflexivity. Qed.

Lemma sys_write_end f w fd data w' r i c : sys f w (SWrite fd data) w' r -> writing w fd i c ->
  faulted f w w' r \/ exists k, k <= len data /\ (0 < k \/ f = true) /\ w' = wrote w fd i (c ++ takeN k data) /\ r = RNum k.
Proof.
  intros H [H1 H2]. destruct (sys_write_inv _ _ _ _ _ _ _ _ _ H H1 H2) as [Hf|(k & Hk & Hp & -> & ->)]; [left; exact Hf|right].
  exists k. split; [exact Hk|]. split; [exact Hp|]. split; [|reflexivity]. rewrite takeN_all by lia. rewrite dropN_all by lia. rewrite app_nil_r.
  unfold wrote. rewrite len_app, len_takeN. rewrite N.min_l by lia. reflexivity.
Qed.

Lemma loop_write_exec f fuel : forall w fd p w' r i c,
  exec f w (loop_write fuel fd p) w' r -> writing w fd i c ->
  exists q, w' = wrote w fd i (c ++ q) /\ (r = Ok tt -> q = p).
Proof.
  induction fuel as [|fuel IH]; intros w fd p w' r i c H HW; [inversion H|]. cbn [loop_write] in H. destruct p as [|x p].
  - ret H. exists []. rewrite app_nil_r, wrote_same by exact HW. auto.
  - set (d := x :: p) in *. apply exec_sys_inv in H; destruct H as (w1 & r1 & Hs & Hx).
    destruct (sys_write_end _ _ _ _ _ _ _ _ Hs HW) as [(_ & -> & e & -> & _)|(k & Hk & _ & -> & ->)].
    + ret Hx. exists []. rewrite app_nil_r, wrote_same by exact HW. split; [reflexivity|discriminate].
    + replace (k <=? len d) with true in Hx by lia.
      destruct (IH _ _ _ _ _ i (c ++ takeN k d) Hx) as (q & -> & Hq). { eapply wrote_writing; eauto. }
      exists (takeN k d ++ q). rewrite wrote_wrote, app_assoc. split; [reflexivity|]. intros Hr. rewrite (Hq Hr). apply takeN_dropN.
Qed.

Lemma save_compress_exec bound t cd f fuel : forall w fd s d o fin inp cc w' r i c,
  exec f w (save_compress_loop cd fuel fd s inp cc) w' r -> writing w fd i c ->
  encodes bound t cd s d o fin -> (forall l, fin = Some l -> inp = l) -> cc = len o ->
  exists q, w' = wrote w fd i (c ++ q) /\
    (r = Ok tt -> packed cd (o ++ q) (d ++ inp) /\ detect_compression (o ++ q) = Ok t /\ len (o ++ q) < CHUNK_LIMIT_MAX).
Proof.
  induction fuel as [|fuel IH]; intros w fd s d o fin inp cc w' r i c H HW HE Hfin Hcc; [inversion H|].
  destruct (compressor_encode_ok bound t cd s d o fin true inp HE) as (s' & out & rr & inp' & E & Hr);
    [discriminate|intros l Hl; split; [reflexivity|exact (Hfin l Hl)]|].
  cbn [save_compress_loop] in H. rewrite E in H. unfold ptry in H. apply exec_bind in H. destruct H as (w1 & r1 & H1 & H).
  destruct (loop_write_exec _ _ _ _ _ _ _ _ _ H1 HW) as (q & -> & Hq).
  destruct r1 as [[]|er| |]; try (ret H; exists q; split; [reflexivity|discriminate]).
  specialize (Hq eq_refl). subst q. cbv beta iota zeta in H.
  destruct (CHUNK_LIMIT_MAX <=? cc + len out) eqn:Em.
  { ret H. exists out. split; [reflexivity|discriminate]. }
  assert (rr = CEof \/ (exec f (wrote w fd i (c ++ out)) (save_compress_loop cd fuel fd s' inp' (cc + len out)) w' r /\
          exists d', d' ++ inp' = d ++ inp /\ encodes bound t cd s' d' (o ++ out) (Some inp'))) as [->|[H' (d' & A1 & A2)]].
  { destruct rr; [left; reflexivity| |]; right; (split; [exact H|]); destruct Hr as (d' & A1 & A2 & _); exists d'; auto. }
  - destruct Hr as (_ & A1 & A2 & _). exists out. destruct (_ <? _); ret H; split; try reflexivity; try discriminate.
    intros _. rewrite len_app. split; [exact A1|]. split; [exact A2|lia].
  - destruct (IH _ _ s' d' (o ++ out) (Some inp') inp' _ _ _ i (c ++ out) H') as (q & -> & Hq).
    + eapply wrote_writing; eauto.
    + exact A2.
    + intros l Hl. congruence.
    + rewrite len_app. lia.
    + exists (out ++ q). rewrite wrote_wrote, app_assoc. split; [reflexivity|]. intros Hx. rewrite !app_assoc, <- A1. auto.
Qed.

Lemma save_decompress_exec cd f fuel : forall w fd s z p dc w' r i c,
  exec f w (save_decompress_loop cd fuel fd s z dc) w' r -> writing w fd i c -> decodes cd s z p ->
  exists q, w' = wrote w fd i (c ++ q) /\ (r = Ok tt -> q = p /\ dc + len q < CHUNK_LIMIT_MAX).
Proof.
  induction fuel as [|fuel IH]; intros w fd s z p dc w' r i c H HW HD; [inversion H|].
  destruct (decodes_step _ _ _ _ HD) as [Hz _].
  destruct (compressor_decode_ok cd s z p z [] HD (eq_sym (app_nil_r z)) Hz)
    as (s' & out & rr & p' & Ep & Hc).
  assert (exists inp', compressor_decode cd s z BUFFER_SIZE = Ok (s', inp', out, rr) /\
    ((rr = CEof /\ p' = []) \/ (rr = CMore /\ decodes cd s' inp' p'))) as (inp' & E & Hcase).
  { destruct Hc as [(-> & _ & -> & E)|[(-> & HD' & E)|(i' & -> & Hi & HD' & Hl & E)]].
    - exists []. auto.
    - destruct (decodes_step _ _ _ _ HD') as [Hz' _]. congruence.
    - exists i'. rewrite app_nil_r in HD'. auto. }
  cbn [save_decompress_loop] in H. rewrite E in H. unfold ptry in H. apply exec_bind in H. destruct H as (w1 & r1 & H1 & H).
  destruct (loop_write_exec _ _ _ _ _ _ _ _ _ H1 HW) as (q & -> & Hq).
  destruct r1 as [[]|er| |]; try (ret H; exists q; split; [reflexivity|discriminate]).
  specialize (Hq eq_refl). subst q. cbv beta iota zeta in H.
  destruct (CHUNK_LIMIT_MAX <=? dc + len out) eqn:Em.
  { ret H. exists out. split; [reflexivity|discriminate]. }
  destruct Hcase as [[-> ->]|[-> HD']].
  - rewrite app_nil_r in Ep. subst out. exists p. destruct (_ <? _); ret H; (split; [reflexivity|]); try discriminate.
    intros _. split; [reflexivity|lia].
  - destruct (IH _ _ s' inp' p' _ _ _ i (c ++ out) H) as (q & -> & Hq).
    + eapply wrote_writing; eauto.
    + exact HD'.
    + exists (out ++ q). rewrite wrote_wrote, app_assoc. split; [reflexivity|]. intros Hx. destruct (Hq Hx) as [-> Hl].
      split; [symmetry; exact Ep|]. rewrite len_app. lia.
Qed.

(** ** The other parts of ca_chunk_file_save *)

Lemma access_exec f w root id s w' r : exec f w (chunk_file_access root id s) w' r -> w' = w /\
  (forall b, r = Ok b -> b = match name_at w (chunk_id_format_path root id s) with None => false | Some _ => true end).
Proof.
  intros H. unfold chunk_file_access in H. apply exec_sys_inv in H; destruct H as (w1 & r1 & Hs & Hx).
  destruct (sys_access _ _ _ _ _ Hs) as [(_ & -> & e & -> & Hf)|Hr].
  - destruct e; try discriminate Hf; ret Hx; (split; [reflexivity|discriminate]).
  - destruct (name_at w _); destruct Hr as [-> ->]; ret Hx; (split; [reflexivity|]); intros b Hb; congruence.
Qed.

Definition present (w : world) (root id : list N) : bool :=
  match name_at w (chunk_name root id COMPRESSED), name_at w (chunk_name root id UNCOMPRESSED) with
  | None, None => false
  | _, _ => true
  end.

Lemma test_exec f w root id w' r : exec f w (chunk_file_test root id) w' r -> w' = w /\ (forall b, r = Ok b -> b = present w root id).
Proof.
  intros H. unfold chunk_file_test in H. apply exec_bind in H. destruct H as (w1 & r1 & H1 & H).
  destruct (access_exec _ _ _ _ _ _ _ H1) as [-> Hr1]. unfold present, chunk_name.
  destruct r1 as [[]|er| |].
  - specialize (Hr1 _ eq_refl). ret H. split; [reflexivity|]. intros b Hb. injection Hb as <-.
    destruct (name_at w (chunk_id_format_path root id cacnk)); [reflexivity|discriminate].
  - specialize (Hr1 _ eq_refl). destruct (access_exec _ _ _ _ _ _ _ H) as [-> Hr2]. split; [reflexivity|]. intros b Hb.
    rewrite (Hr2 _ Hb). destruct (name_at w (chunk_id_format_path root id cacnk)); [discriminate|reflexivity].
  - ret H. split; [reflexivity|discriminate].
  - ret H. split; [reflexivity|discriminate].
  - ret H. split; [reflexivity|discriminate].
Qed.

(** Only the name [d] may have changed, and no file at all. *)
Definition same_but (d : list N -> Prop) (w w' : world) : Prop :=
  w_inodes w' = w_inodes w /\ forall q, ~ d q -> name_at w' q = name_at w q.

Lemma same_but_refl d w : same_but d w w. Proof. split; auto. Qed.
Lemma same_but_trans d a b c : same_but d a b -> same_but d b c -> same_but d a c.
Proof. intros [H1 H2] [H3 H4]. split; [congruence|]. intros q Hq. rewrite H4, H2; auto. Qed.
Lemma same_but_weaken (d e : list N -> Prop) a b : (forall q, d q -> e q) -> same_but d a b -> same_but e a b.
Proof. intros H [H1 H2]. split; [exact H1|]. intros q Hq. apply H2. auto. Qed.

Lemma name_put_other w p n q : p <> q -> name_at (put_name w p n) q = name_at w q.
Proof. intros H. rewrite name_put. apply beq_neq in H. rewrite H. reflexivity. Qed.
Lemma name_del_other w p q : p <> q -> name_at (del_name w p) q = name_at w q.
Proof. intros H. rewrite name_del. apply beq_neq in H. rewrite H. reflexivity. Qed.
Lemma name_put_same w p n : name_at (put_name w p n) p = Some n.
Proof. rewrite name_put, beq_refl. reflexivity. Qed.

Lemma same_but_del w p : same_but (eq p) w (del_name w p).
Proof. split; [reflexivity|]. intros q Hq. apply name_del_other. exact Hq. Qed.
Lemma same_but_put w p n : same_but (eq p) w (put_name w p n).
Proof. split; [reflexivity|]. intros q Hq. apply name_put_other. exact Hq. Qed.

Lemma rmdir_same f w p w' r : sys f w (SRmdir p) w' r -> same_but (eq p) w w'.
Proof. intros H. destruct (sys_rmdir _ _ _ _ _ H) as [->|(-> & _)]; [apply same_but_refl|apply same_but_del]. Qed.

Lemma make_subdir_exec f w path w' r : exec f w (make_subdir path) w' r -> same_but (eq (dirname path)) w w'.
Proof.
  intros H. unfold make_subdir in H. apply exec_sys_inv in H; destruct H as (w1 & r1 & Hs & Hx).
  assert (same_but (eq (dirname path)) w w1) as Hw.
  { destruct (sys_mkdir _ _ _ _ _ Hs) as [(_ & -> & _)|Hr]; [apply same_but_refl|].
    destruct (name_at w (dirname path)); destruct Hr as [-> _]; [apply same_but_refl|apply same_but_put]. }
  destruct r1 as [| | | |e]; [| | | |destruct e]; ret Hx; exact Hw.
Qed.

Lemma create_exec f w root id s w' r : no_slash s -> exec f w (chunk_file_create root id s) w' r ->
  match r with
  | Ok fd => exists w0, same_but (eq (subdir root id)) w w0 /\ name_at w0 (chunk_id_format_path root id s) = None /\
             w_fds w0 = w_fds w /\ fd = length (w_fds w) /\
             w' = add_fd (add_file w0 (chunk_id_format_path root id s)) (length (w_inodes w0))
  | _ => same_but (eq (subdir root id)) w w'
  end.
Proof.
  intros Hsl H. set (path := chunk_id_format_path root id s) in *. assert (dirname path = subdir root id) as Ed by (apply dirname_path; exact Hsl).
  unfold chunk_file_create in H. fold path in H. unfold ptry in H. apply exec_bind in H. destruct H as (w1 & r1 & H1 & H).
  assert (w_fds w1 = w_fds w) as Hfds.
  { unfold make_subdir in H1. apply exec_sys_inv in H1; destruct H1 as (w2 & r2 & Hs & Hx).
    assert (w_fds w2 = w_fds w). { destruct (sys_mkdir _ _ _ _ _ Hs) as [(_ & -> & _)|Hr]; [reflexivity|]. destruct (name_at w _); destruct Hr as [-> _]; reflexivity. }
    destruct r2 as [| | | |e]; [| | | |destruct e]; ret Hx; assumption. }
  apply make_subdir_exec in H1. rewrite Ed in H1.
  destruct r1 as [made|e| |]; try (ret H; exact H1).
  apply exec_sys_inv in H; destruct H as (w2 & r2 & Hs & Hx).
  destruct (sys_creat _ _ _ _ _ Hs) as [(_ & -> & e & -> & _)|Hr].
  - unfold drop_subdir in Hx. destruct made; [|ret Hx; exact H1].
    apply exec_sys_inv in Hx; destruct Hx as (w3 & r3 & Hs3 & Hx3). ret Hx3. apply rmdir_same in Hs3. rewrite Ed in Hs3. eapply same_but_trans; eauto.
  - assert (forall e, w2 = w1 -> r2 = RFail e -> match r with Ok _ => False | _ => same_but (eq (subdir root id)) w w' end) as Hfail.
    { intros e -> ->. unfold drop_subdir in Hx. destruct made; [|ret Hx; exact H1].
      apply exec_sys_inv in Hx; destruct Hx as (w3 & r3 & Hs3 & Hx3). ret Hx3. apply rmdir_same in Hs3. rewrite Ed in Hs3. eapply same_but_trans; eauto. }
    destruct (name_at w1 path) eqn:En.
    + destruct Hr as [-> ->]. specialize (Hfail _ eq_refl eq_refl). destruct r; [contradiction|exact Hfail..].
    + destruct Hr as [(-> & -> & _)|(-> & -> & _)].
      * specialize (Hfail _ eq_refl eq_refl). destruct r; [contradiction|exact Hfail..].
      * ret Hx. exists w1. rewrite Hfds. auto.
Qed.

Lemma unlink_exec f w root id s w' r : no_slash s -> exec f w (chunk_file_unlink root id s) w' r ->
  same_but (fun q => q = chunk_id_format_path root id s \/ q = subdir root id) w w'.
Proof.
  intros Hsl H. set (path := chunk_id_format_path root id s) in *. assert (dirname path = subdir root id) as Ed by (apply dirname_path; exact Hsl).
  unfold chunk_file_unlink in H. fold path in H. apply exec_sys_inv in H; destruct H as (w1 & r1 & Hs & Hx).
  assert (same_but (fun q => q = path \/ q = subdir root id) w w1) as H1.
  { eapply same_but_weaken with (d := eq path); [intros q <-; auto|].
    destruct (sys_unlink _ _ _ _ _ Hs) as [(_ & -> & _)|Hr]; [apply same_but_refl|].
    destruct (name_at w path) as [[| |]|]; destruct Hr as [-> _]; try apply same_but_refl; apply same_but_del. }
  destruct r1; try (ret Hx; exact H1).
  apply exec_sys_inv in Hx; destruct Hx as (w2 & r2 & Hs2 & Hx2). ret Hx2. eapply same_but_trans; [exact H1|].
  apply rmdir_same in Hs2. rewrite Ed in Hs2. eapply same_but_weaken; [|exact Hs2]. intros q <-. auto.
Qed.

(** rename_noreplace: the new name is either as before, or it wasn't there and is now what the old name was. *)
Lemma rename_exec f w p q w' r n : p <> q -> name_at w p = Some n -> exec f w (rename_noreplace p q) w' r ->
  same_but (fun x => x = p \/ x = q) w w' /\
  (name_at w' q = name_at w q \/ (name_at w q = None /\ name_at w' q = Some n)) /\
  (r = Ok tt -> name_at w q = None /\ name_at w' q = Some n).
Proof.
  intros Hpq Hn H. unfold rename_noreplace in H.
  set (Q := fun (w' : world) (r : res unit) => same_but (fun x => x = p \/ x = q) w w' /\
    (name_at w' q = name_at w q \/ (name_at w q = None /\ name_at w' q = Some n)) /\
    (r = Ok tt -> name_at w q = None /\ name_at w' q = Some n)). change (Q w' r).
  assert (forall r, r <> Ok tt -> Q w r) as Hsame. { intros r0 Hr. split; [apply same_but_refl|]. split; [auto|congruence]. }
  assert (forall r, name_at w q = None -> Q (put_name (del_name w p) q n) r) as Hmoved.
  { intros r0 Hq. split; [|split].
    - split; [reflexivity|]. intros x Hx. rewrite name_put_other, name_del_other; [reflexivity| |]; intros <-; apply Hx; auto.
    - right. split; [exact Hq|apply name_put_same].
    - intros _. split; [exact Hq|apply name_put_same]. }
  apply exec_sys_inv in H; destruct H as (w1 & r1 & Hs & Hx). try clear H.
  destruct (sys_rename_noreplace _ _ _ _ _ _ Hs) as [(_ & -> & e & -> & _)|Hr].
  2:{ rewrite Hn in Hr. destruct (name_at w q) eqn:Eq; destruct Hr as [-> ->].
      - cbn in Hx. ret Hx. apply Hsame. discriminate.
      - ret Hx. apply Hmoved. first [exact Eq|reflexivity]. }
  destruct (negb (errno_is_unsupported e)); [ret Hx; apply Hsame; discriminate|].
  apply exec_sys_inv in Hx; destruct Hx as (w2 & r2 & Hs2 & Hx2). try clear Hx.
  destruct (sys_link _ _ _ _ _ _ Hs2) as [(_ & -> & e2 & -> & _)|Hr].
  - destruct (negb (errno_is_unsupported e2)); [ret Hx2; apply Hsame; discriminate|].
    apply exec_sys_inv in Hx2; destruct Hx2 as (w3 & r3 & Hs3 & Hx3). try clear Hx2.
    destruct (sys_access _ _ _ _ _ Hs3) as [(_ & -> & e3 & -> & Hf3)|Hr3].
    + destruct e3; try discriminate Hf3; ret Hx3; apply Hsame; discriminate.
    + destruct (name_at w q) eqn:Eq; destruct Hr3 as [-> ->]; [ret Hx3; apply Hsame; discriminate|].
      apply exec_sys_inv in Hx3; destruct Hx3 as (w4 & r4 & Hs4 & Hx4). try clear Hx3.
      destruct (sys_renameat _ _ _ _ _ _ Hs4) as [(_ & -> & e4 & -> & _)|Hr4].
      * ret Hx4. apply Hsame. discriminate.
      * rewrite Hn in Hr4. destruct Hr4 as (-> & -> & _). ret Hx4. apply Hmoved. reflexivity.
  - rewrite Hn in Hr. destruct (name_at w q) eqn:Eq.
    { destruct Hr as [-> ->]. cbn in Hx2. ret Hx2. apply Hsame. discriminate. }
    destruct n as [| |i]; try (destruct Hr as [-> ->]; cbn in Hx2; ret Hx2; apply Hsame; discriminate).
    destruct Hr as [-> ->]. set (w3 := put_name w q (NFile i)) in *.
    assert (name_at w3 q = Some (NFile i)) as Eq3 by apply name_put_same.
    assert (name_at w3 p = Some (NFile i)) as Ep3 by (unfold w3; rewrite name_put_other by congruence; exact Hn).
    apply exec_sys_inv in Hx2; destruct Hx2 as (w4 & r4 & Hs4 & Hx4). try clear Hx2.
    assert (same_but (fun x => x = p \/ x = q) w w3) as S3. { eapply same_but_weaken; [|apply same_but_put]. intros x <-. auto. }
    destruct (sys_unlink _ _ _ _ _ Hs4) as [(_ & -> & e4 & -> & _)|Hr4].
    + apply exec_sys_inv in Hx4; destruct Hx4 as (w5 & r5 & Hs5 & Hx5). try clear Hx4. ret Hx5.
      destruct (sys_unlink _ _ _ _ _ Hs5) as [(_ & -> & e5 & -> & _)|Hr5].
      * split; [exact S3|]. split; [right; auto|discriminate].
      * rewrite Eq3 in Hr5. destruct Hr5 as [-> ->].
        split; [eapply same_but_trans; [exact S3|eapply same_but_weaken; [|apply same_but_del]; intros x <-; auto]|].
        split; [left|discriminate]. rewrite name_del, beq_refl. first [reflexivity|symmetry; exact Eq].
    + rewrite Ep3 in Hr4. destruct Hr4 as [-> ->]. ret Hx4.
      assert (name_at (del_name w3 p) q = Some (NFile i)) as E5 by (rewrite name_del_other by exact Hpq; exact Eq3).
      split; [eapply same_but_trans; [exact S3|eapply same_but_weaken; [|apply same_but_del]; intros x <-; auto]|].
      split; [right; auto|auto].
Qed.
