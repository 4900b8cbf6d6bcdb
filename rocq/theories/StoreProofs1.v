(** Executions of programs, and the loops around the compression libraries. *)
From Verif Require Import Base ChunkId ChunkIdProofs Posix ChunkFile Store StoreSpec.
Local Open Scope N_scope.
Local Opaque BUFFER_SIZE CHUNK_LIMIT_MAX CHUNK_LIMIT_MIN.

Lemma exec_bind f {A B} (p : prog A) (g : A -> prog B) w w' b :
  exec f w (pbind p g) w' b <-> exists w1 a, exec f w p w1 a /\ exec f w1 (g a) w' b.
Proof.
  split.
  - revert w. induction p as [a| |c k IH]; intros w H; cbn in H.
    + exists w, a. split; [constructor|exact H].
    + inversion H.
    + inversion H; subst. destruct (IH _ _ H6) as (w2 & a & H1 & H2).
      exists w2, a. split; [econstructor; eauto|exact H2].
  - intros (w1 & a & H1 & H2). induction H1; cbn; [exact H2|]. econstructor; eauto.
Qed.

Lemma may_bind {A B} (p : prog A) (g : A -> prog B) b : may (pbind p g) b -> exists a, may p a /\ may (g a) b.
Proof.
  induction p as [a| |c k IH]; cbn; intros H.
  - exists a. split; [constructor|exact H].
  - inversion H.
  - inversion H as [|? ? r ? H1 H2]; subst. destruct (IH _ H1) as (a & H3 & H4). exists a. split; [|exact H4]. econstructor; exact H3.
Qed.

Lemma exec_may f {A} (p : prog A) w w' a : exec f w p w' a -> may p a.
Proof. intros H. induction H; [constructor|econstructor; eassumption]. Qed.

Lemma ends_bind f {A B} (p : prog A) (g : A -> prog B) w Q :
  ends f w p (fun w1 a => ends f w1 (g a) Q) -> ends f w (pbind p g) Q.
Proof.
  revert w. induction p as [a| |c k IH]; intros w H; cbn in *; auto.
  destruct H as [He H]. split; [exact He|]. intros w' r Hs. apply IH. auto.
Qed.

Lemma ends_mono f {A} (p : prog A) w (Q R : world -> A -> Prop) :
  (forall w a, Q w a -> R w a) -> ends f w p Q -> ends f w p R.
Proof.
  intros HQ. revert w. induction p as [a| |c k IH]; intros w H; cbn in *; auto.
  destruct H as [He H]. split; [exact He|]. intros w' r Hs. apply IH. auto.
Qed.

Lemma ends_exec f {A} (p : prog A) w Q w' a : ends f w p Q -> exec f w p w' a -> Q w' a.
Proof.
  intros He H. induction H as [w a|w c k w1 r w2 a Hs Hx IH]; cbn in He; [exact He|]. destruct He as [_ He]. auto.
Qed.

Lemma ends_exists f {A} (p : prog A) w Q : ends f w p Q -> exists w' a, exec f w p w' a.
Proof.
  revert w. induction p as [a| |c k IH]; intros w H; cbn in H.
  - exists w, a. constructor.
  - contradiction.
  - destruct H as [(w1 & r & Hs) H]. destruct (IH r w1 (H _ _ Hs)) as (w2 & a & Hx). exists w2, a.
    econstructor; eauto.
Qed.

(** ** The decoder *)

Lemma decodes_step cd s z p : decodes cd s z p ->
  z <> [] /\
  forall inp rest room, z = inp ++ rest -> inp <> [] -> 0 < room ->
  exists s' n out e p',
    dec_step cd s inp room = Some (s', n, out, e) /\ n <= len inp /\ len out <= room /\ p = out ++ p' /\
    (if e : bool then n = len z /\ p' = []
     else decodes cd s' (dropN n z) p' /\ (0 < n \/ out <> [])).
Proof.
  intros (D & HD & H). destruct (HD _ _ _ H) as [Hz Hs]. split; [exact Hz|]. intros inp rest room E1 E2 E3.
  destruct (Hs inp rest room E1 E2 E3) as (s' & n & out & e & p' & H1 & H2 & H3 & H4 & H5).
  exists s', n, out, e, p'. repeat (split; [assumption|]). destruct e; [exact H5|].
  destruct H5 as [H5 H6]. split; [|exact H6]. exists D. split; assumption.
Qed.

Lemma len_pos {A} (l : list A) : l <> [] -> 0 < len l.
Proof. destruct l; [congruence|]. intros _. rewrite len_cons. lia. Qed.

Lemma buffer_pos : 0 < BUFFER_SIZE. Proof. reflexivity. Qed.

(** One call of compressor_decode on a portion of a stream. *)
Lemma compressor_decode_ok cd s z p inp rest : decodes cd s z p -> z = inp ++ rest -> inp <> [] ->
  exists s' out r p',
    p = out ++ p' /\
    ((r = CEof /\ rest = [] /\ p' = [] /\ compressor_decode cd s inp BUFFER_SIZE = Ok (s', [], out, CEof))
     \/ (r = CGood /\ decodes cd s' rest p' /\ compressor_decode cd s inp BUFFER_SIZE = Ok (s', [], out, CGood))
     \/ (exists inp', r = CMore /\ inp' <> [] /\ decodes cd s' (inp' ++ rest) p' /\
           len inp' + len p' < len inp + len p /\
           compressor_decode cd s inp BUFFER_SIZE = Ok (s', inp', out, CMore))).
Proof.
  intros HD Ez Hi. destruct (decodes_step _ _ _ _ HD) as [Hz Hs].
  destruct (Hs inp rest BUFFER_SIZE Ez Hi buffer_pos) as (s' & n & out & e & p' & E1 & Hn & Ho & Ep & He).
  unfold compressor_decode. rewrite E1. destruct inp as [|x inp]; [congruence|]. set (i := x :: inp) in *.
  destruct e.
  - destruct He as [-> ->]. exists s', out, CEof, []. split; [exact Ep|]. left.
    rewrite Ez, len_app in Hn. assert (len rest = 0) as Hr by lia. apply len_zero_nil in Hr. subst rest.
    rewrite app_nil_r in Ez. subst z. replace (len i <? len i) with false by lia. rewrite dropN_all by lia. auto.
  - destruct He as [HD' Hp]. destruct (n <? len i) eqn:En.
    + exists s', out, CMore, p'. split; [exact Ep|]. right. right. exists (dropN n i).
      split; [reflexivity|]. rewrite Ez, dropN_app_le in HD' by lia.
      split. { intros E. apply (f_equal len) in E. rewrite len_dropN in E. change (@len N []) with 0 in E. lia. }
      split; [exact HD'|]. split; [|reflexivity]. rewrite Ep, len_app, len_dropN.
      destruct Hp as [Hp|Hp]; [lia|]. apply len_pos in Hp. lia.
    + exists s', out, CGood, p'. split; [exact Ep|]. right. left.
      assert (n = len i) as -> by lia. rewrite Ez, dropN_app_exact in HD' by reflexivity.
      rewrite dropN_all by lia. auto.
Qed.

Lemma decompress_loop_ok cd fuel : forall s z p buf dc,
  decodes cd s z p -> len z + len p < N.of_nat fuel -> dc + len p < CHUNK_LIMIT_MAX ->
  decompress_loop cd fuel s z buf dc
  = Some (if dc + len p <? CHUNK_LIMIT_MIN then Err EINVAL else Ok (buf ++ p)).
Proof.
  induction fuel as [|fuel IH]; intros s z p buf dc HD Hf Hm; [lia|].
  destruct (decodes_step _ _ _ _ HD) as [Hz _].
  destruct (compressor_decode_ok cd s z p z [] HD (eq_sym (app_nil_r z)) Hz)
    as (s' & out & r & p' & Ep & [(-> & _ & -> & E)|[(-> & HD' & E)|(i' & -> & Hi & HD' & Hl & E)]]);
    cbn [decompress_loop]; rewrite E; cbv beta iota zeta.
  - rewrite app_nil_r in Ep. subst out. replace (CHUNK_LIMIT_MAX <=? dc + len p) with false by lia.
    destruct (_ <? _); reflexivity.
  - destruct (decodes_step _ _ _ _ HD') as [Hz' _]. congruence.
  - subst p. rewrite len_app in *. replace (CHUNK_LIMIT_MAX <=? dc + len out) with false by lia.
    rewrite app_nil_r in HD'. rewrite (IH _ _ _ _ _ HD') by lia.
    rewrite <- N.add_assoc, app_assoc. reflexivity.
Qed.

Lemma decompress_loop_inflates cd fuel : forall s inp buf dc b,
  decompress_loop cd fuel s inp buf dc = Some (Ok b) ->
  exists p, b = buf ++ p /\ inflates cd s inp p /\ CHUNK_LIMIT_MIN <= dc + len p < CHUNK_LIMIT_MAX.
Proof.
  induction fuel as [|fuel IH]; intros s inp buf dc b H; [discriminate|].
  cbn [decompress_loop] in H. unfold compressor_decode in H. destruct inp as [|x inp]; [discriminate|].
  set (i := x :: inp) in *. destruct (dec_step cd s i BUFFER_SIZE) as [[[[s' n] out] e]|] eqn:E; [|discriminate].
  destruct e.
  - destruct (n <? len i) eqn:En; [discriminate|]. cbv beta iota zeta in H.
    destruct (CHUNK_LIMIT_MAX <=? dc + len out) eqn:Em; [discriminate|].
    destruct (dc + len out <? CHUNK_LIMIT_MIN) eqn:El; [discriminate|].
    exists out. split; [congruence|]. split; [|lia]. eapply inf_end; [exact E|lia].
  - cbv beta iota zeta in H. destruct (CHUNK_LIMIT_MAX <=? dc + len out) eqn:Em; [discriminate|].
    assert (decompress_loop cd fuel s' (dropN n i) (buf ++ out) (dc + len out) = Some (Ok b)) as H'
      by (destruct (n <? len i); exact H).
    destruct (IH _ _ _ _ _ H') as (p & -> & Hi & Hl). exists (out ++ p). split; [apply app_assoc_reverse|].
    split; [eapply inf_step; eauto|]. rewrite len_app. lia.
Qed.

(** ** The inner loop when reading a compressed file *)

Lemma decode_input_ok cd fuel : forall s z p inp rest buf dc,
  decodes cd s z p -> z = inp ++ rest -> inp <> [] -> len inp + len p < N.of_nat fuel ->
  dc + len p < CHUNK_LIMIT_MAX ->
  exists s' out p' eof,
    decode_input cd fuel s inp buf dc = Some (Ok (s', buf ++ out, dc + len out, eof)) /\ p = out ++ p' /\
    (if eof : bool then rest = [] /\ p' = [] else decodes cd s' rest p').
Proof.
  induction fuel as [|fuel IH]; intros s z p inp rest buf dc HD Ez Hi Hf Hm; [lia|].
  destruct (compressor_decode_ok cd s z p inp rest HD Ez Hi)
    as (s' & out & r & p' & Ep & [(-> & -> & -> & E)|[(-> & HD' & E)|(i' & -> & Hi' & HD' & Hl & E)]]);
    cbn [decode_input]; rewrite E; cbv beta iota zeta.
  - rewrite app_nil_r in Ep. subst out. replace (CHUNK_LIMIT_MAX <=? dc + len p) with false by lia.
    exists s', p, [], true. rewrite app_nil_r. auto.
  - rewrite Ep, len_app in Hm. replace (CHUNK_LIMIT_MAX <=? dc + len out) with false by lia.
    exists s', out, p', false. auto.
  - subst p. rewrite len_app in *. replace (CHUNK_LIMIT_MAX <=? dc + len out) with false by lia.
    destruct (IH s' (i' ++ rest) p' i' rest (buf ++ out) (dc + len out) HD' eq_refl Hi') as (s2 & o2 & p2 & eof & E2 & E3 & E4);
      [lia|lia|].
    exists s2, (out ++ o2), p2, eof. rewrite E2, len_app, N.add_assoc, app_assoc. split; [reflexivity|].
    split; [|exact E4]. rewrite E3, app_assoc. reflexivity.
Qed.

(** ** The encoder *)

Definition encodes (bound : N -> N) (t : ctype) (cd : codec) (s : enc_st cd) (d o : list N) (fin : option (list N)) : Prop :=
  exists E : enc_st cd -> list N -> list N -> option (list N) -> Prop,
    (forall s d o fin, E s d o fin ->
       forall (finish : bool) inp room,
       0 < room -> (finish = false -> inp <> []) -> (forall l, fin = Some l -> finish = true /\ inp = l) ->
       exists s' n out e,
         enc_step cd s finish inp room = Some (s', n, out, e) /\ n <= len inp /\ len out <= room /\
         len (o ++ out) <= bound (len (d ++ takeN n inp)) /\
         (if e : bool then finish = true /\ n = len inp /\
                    packed cd (o ++ out) (d ++ inp) /\ detect_compression (o ++ out) = Ok t
          else E s' (d ++ takeN n inp) (o ++ out) (if finish then Some (dropN n inp) else None) /\
               (0 < n \/ out <> [])))
    /\ E s d o fin.

Lemma codec_ok_encodes bound t cd : codec_ok bound t cd -> encodes bound t cd (enc_new cd) [] [] None.
Proof. exact (fun H => H). Qed.

Lemma encodes_step bound t cd s d o fin (finish : bool) inp room :
  encodes bound t cd s d o fin ->
  0 < room -> (finish = false -> inp <> []) -> (forall l, fin = Some l -> finish = true /\ inp = l) ->
  exists s' n out e,
    enc_step cd s finish inp room = Some (s', n, out, e) /\ n <= len inp /\ len out <= room /\
    len (o ++ out) <= bound (len (d ++ takeN n inp)) /\
    (if e : bool then finish = true /\ n = len inp /\
               packed cd (o ++ out) (d ++ inp) /\ detect_compression (o ++ out) = Ok t
     else encodes bound t cd s' (d ++ takeN n inp) (o ++ out) (if finish then Some (dropN n inp) else None) /\
          (0 < n \/ out <> [])).
Proof.
  intros (E & HE & H) H1 H2 H3. destruct (HE _ _ _ _ H finish inp room H1 H2 H3) as (s' & n & out & e & E1 & E2 & E3 & E4 & E5).
  exists s', n, out, e. repeat (split; [assumption|]). destruct e; [exact E5|]. destruct E5 as [E5 E6]. split; [|exact E6].
  exists E. split; assumption.
Qed.

(** One call of compressor_encode. *)
Lemma compressor_encode_ok bound t cd s d o fin (finish : bool) inp :
  encodes bound t cd s d o fin ->
  (finish = false -> inp <> []) -> (forall l, fin = Some l -> finish = true /\ inp = l) ->
  exists s' out r inp',
    compressor_encode cd s finish inp BUFFER_SIZE = Ok (s', inp', out, r) /\
    (match r with
     | CEof => finish = true /\ packed cd (o ++ out) (d ++ inp) /\ detect_compression (o ++ out) = Ok t /\
               len (o ++ out) <= bound (len (d ++ inp))
     | _ => exists d', d' ++ inp' = d ++ inp /\
            encodes bound t cd s' d' (o ++ out) (if finish then Some inp' else None) /\
            (r = CMore <-> inp' <> []) /\
            len inp' <= len inp /\ (len inp' < len inp \/ out <> []) /\ len (o ++ out) <= bound (len d')
     end).
Proof.
  intros HE H2 H3.
  destruct (encodes_step bound t cd s d o fin finish inp BUFFER_SIZE HE buffer_pos H2 H3)
    as (s' & n & out & e & E1 & E2 & E3 & E4 & E5).
  unfold compressor_encode. rewrite E1. destruct e.
  - destruct E5 as (-> & -> & E5 & E6). replace (len inp <? len inp) with false by lia.
    exists s', out, CEof, (dropN (len inp) inp). split; [reflexivity|]. rewrite takeN_all in E4 by lia. auto.
  - destruct E5 as [E5 E6]. exists s', out, (if n <? len inp then CMore else CGood), (dropN n inp). split; [reflexivity|].
    assert (exists d', d' ++ dropN n inp = d ++ inp /\
            encodes bound t cd s' d' (o ++ out) (if finish then Some (dropN n inp) else None) /\
            len (dropN n inp) <= len inp /\ (len (dropN n inp) < len inp \/ out <> []) /\ len (o ++ out) <= bound (len d')) as HH.
    { exists (d ++ takeN n inp). split. { rewrite <- app_assoc, takeN_dropN. reflexivity. }
      split; [exact E5|]. rewrite len_dropN. split; [lia|]. split; [|exact E4]. destruct E6 as [E6|E6]; [left; lia|right; exact E6]. }
    destruct HH as (d' & A1 & A2 & A3 & A4 & A5). destruct (n <? len inp) eqn:En; exists d'; repeat (split; [assumption|]).
    + split; [|auto]. split; [|reflexivity]. intros _ E. apply (f_equal len) in E. rewrite len_dropN in E.
      change (@len N []) with 0 in E. lia.
    + split; [|auto]. split; [discriminate|]. intros Hx. exfalso. apply Hx. apply dropN_all. lia.
Qed.

Lemma packed_pos cd z p : packed cd z p -> CHUNK_LIMIT_MIN <= len z.
Proof. intros H. destruct (decodes_step _ _ _ _ H) as [Hz _]. apply len_pos in Hz. change CHUNK_LIMIT_MIN with 1. lia. Qed.
