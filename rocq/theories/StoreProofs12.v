(** Truncated compressed data; a codec, to show that the assumptions about codecs can be met. *)
From Verif Require Import Base ChunkId ChunkIdProofs Posix PosixProofs ChunkFile Store StoreSpec StoreProofs1 StoreProofs2 StoreProofs3.
Local Open Scope N_scope.
Local Opaque BUFFER_SIZE CHUNK_LIMIT_MAX CHUNK_LIMIT_MIN.

Lemma decompress_loop_truncated cd fuel : forall s z p inp rest buf dc,
  decodes cd s z p -> z = inp ++ rest -> inp <> [] -> rest <> [] -> len inp + len p + 1 < N.of_nat fuel ->
  dc + len p < CHUNK_LIMIT_MAX ->
  decompress_loop cd fuel s inp buf dc = Some Abort.
Proof.
  induction fuel as [|fuel IH]; intros s z p inp rest buf dc HD Ez Hi Hr Hf Hm; [lia|].
  destruct (compressor_decode_ok cd s z p inp rest HD Ez Hi)
    as (s' & out & r & p' & Ep & [(-> & -> & -> & E)|[(-> & HD' & E)|(i' & -> & Hi' & HD' & Hl & E)]]);
    cbn [decompress_loop]; rewrite E; cbv beta iota zeta.
  - congruence.
  - rewrite Ep, len_app in Hm. replace (CHUNK_LIMIT_MAX <=? dc + len out) with false by lia.
    destruct fuel; [lia|]. reflexivity.
  - subst p. pose proof (len_app out p'). replace (CHUNK_LIMIT_MAX <=? dc + len out) with false by lia.
    eapply IH; [exact HD'|reflexivity|exact Hi'|exact Hr|lia|lia].
Qed.

Lemma decompress_truncated codecs fuel z1 z2 p t cd :
  detect_compression z1 = Ok t -> codecs t = Some cd -> packed cd (z1 ++ z2) p -> z1 <> [] -> z2 <> [] ->
  len p < CHUNK_LIMIT_MAX -> len z1 <= CHUNK_LIMIT_MAX -> len z1 + len p + 1 < N.of_nat fuel ->
  decompress codecs fuel z1 [] = Some Abort.
Proof.
  intros Hd Hc HD H1 H2 Hp Hz Hf. unfold decompress, bad_size. pose proof (len_pos _ H1) as Hp1.
  replace (len z1 <? CHUNK_LIMIT_MIN) with false by (change CHUNK_LIMIT_MIN with 1; lia). replace (CHUNK_LIMIT_MAX <? len z1) with false by lia. cbn [orb].
  unfold detect_all. rewrite Hd. cbn [bind start_codec]. rewrite Hc. eapply decompress_loop_truncated; [exact HD|reflexivity|exact H1|exact H2|exact Hf|lia].
Qed.

Lemma store_get_truncated codecs digest fuel w st root id z1 z2 p t cd :
  enough fuel -> st_root st = Some root ->
  file_at w (chunk_name root id COMPRESSED) = Some z1 ->
  detect_compression z1 = Ok t -> codecs t = Some cd -> packed cd (z1 ++ z2) p -> z1 <> [] -> z2 <> [] ->
  len p < CHUNK_LIMIT_MAX -> len z1 < CHUNK_LIMIT_MAX ->
  ends false w (store_get codecs digest fuel st id COMPRESSED) (fun _ r => r = Abort).
Proof.
  intros Hf Hroot Hfile Hd Hc HD H1 H2 Hp Hz. unfold enough in Hf. unfold store_get. rewrite Hroot. apply ends_bind. unfold chunk_file_load. cbn [compression_eqb].
  apply ends_open. intros w3 r Hsm Hn.
  change (chunk_id_format_path root id cacnk) with (chunk_name root id COMPRESSED) in Hn.
  destruct (file_at_inv _ _ _ Hfile) as (i & Hi1 & Hi2). rewrite Hi1 in Hn. destruct Hn as (fd & -> & Hrd).
  apply ends_bind. eapply ends_mono; [|apply (load_fd_ok fuel w3 fd z1 [] 0 (Hrd _ Hi2)); lia].
  cbv beta. intros w4 r4 [_ ->]. pose proof (len_pos _ H1).
  replace (0 + len z1 <? CHUNK_LIMIT_MIN) with false by (change CHUNK_LIMIT_MIN with 1; lia).
  replace (CHUNK_LIMIT_MAX <=? 0 + len z1) with false by lia. cbn [orb ends app]. cbn [compression_eqb].
  rewrite (decompress_truncated codecs fuel z1 z2 p t cd) by (assumption || lia). reflexivity.
Qed.

(** A stream "1 b" for each byte b, then "0", after gzip's signature. *)
Inductive stored_dec := Sig0 | Sig1 | Tag | Byte | Done.

Definition stored : codec := {|
  enc_st := list N;
  enc_new := gzip_signature;
  enc_step := fun pend finish inp room =>
    match pend, inp with
    | b :: pend, _ => Some (pend, 0, [b], false)
    | [], x :: _ => Some ([1; x], 1, [], false)
    | [], [] => if finish : bool then Some ([], 0, [0], true) else None
    end;
  dec_st := stored_dec;
  dec_new := Sig0;
  dec_step := fun s inp room =>
    match inp with
    | [] => None
    | x :: _ =>
      match s with
      | Sig0 => if x =? 31 then Some (Sig1, 1, [], false) else None
      | Sig1 => if x =? 139 then Some (Tag, 1, [], false) else None
      | Tag => if x =? 0 then Some (Done, 1, [], true) else if x =? 1 then Some (Byte, 1, [], false) else None
      | Byte => Some (Tag, 1, [x], false)
      | Done => None
      end
    end
|}.

Fixpoint framed (p : list N) : list N := match p with [] => [] | b :: p => 1 :: b :: framed p end.

Lemma framed_app a b : framed (a ++ b) = framed a ++ framed b.
Proof. induction a; cbn; congruence. Qed.
Lemma len_framed p : len (framed p) = 2 * len p.
Proof. induction p; cbn [framed]; rewrite ?len_cons; [reflexivity|lia]. Qed.

Definition stored_left (s : stored_dec) (z p : list N) : Prop :=
  match s with
  | Sig0 => z = 31 :: 139 :: framed p ++ [0]
  | Sig1 => z = 139 :: framed p ++ [0]
  | Tag => z = framed p ++ [0]
  | Byte => exists b q, p = b :: q /\ z = b :: framed q ++ [0]
  | Done => False
  end.

Lemma stored_decodes s z p : stored_left s z p -> decodes stored s z p.
Proof.
  intros H. exists stored_left. split; [|exact H]. clear. intros s z p H. split.
  - destruct s; cbn in H; subst; try discriminate; [destruct p; discriminate|destruct H as (b & q & -> & ->); discriminate|contradiction].
  - intros inp rest room -> Hi Hroom. destruct inp as [|x inp]; [congruence|]. cbn [dec_step stored].
    destruct s; cbn in H; try contradiction.
    + injection H as -> H. change (31 =? 31) with true. exists Sig1, 1, [], false, p. split; [reflexivity|]. rewrite len_cons. split; [lia|]. split; [apply N.le_0_l|].
      split; [reflexivity|]. split; [exact H|left; lia].
    + injection H as -> H. change (139 =? 139) with true. exists Tag, 1, [], false, p. split; [reflexivity|]. rewrite len_cons. split; [lia|]. split; [apply N.le_0_l|].
      split; [reflexivity|]. split; [exact H|left; lia].
    + destruct p as [|b q]; cbn in H; injection H as -> H.
      * exists Done, 1, [], true, []. split; [reflexivity|]. rewrite len_cons. split; [lia|]. split; [apply N.le_0_l|]. split; [reflexivity|]. split; [|reflexivity].
        cbn [app]. rewrite len_cons, H. reflexivity.
      * exists Byte, 1, [], false, (b :: q). split; [reflexivity|]. rewrite len_cons. split; [lia|]. split; [apply N.le_0_l|]. split; [reflexivity|].
        split; [|left; lia]. exists b, q. split; [reflexivity|]. exact H.
    + destruct H as (b & q & -> & H). injection H as -> H. exists Tag, 1, [b], false, q. split; [reflexivity|]. rewrite len_cons. split; [lia|].
      split; [rewrite len_cons; change (@len N []) with 0; lia|]. split; [reflexivity|]. split; [exact H|left; lia].
Qed.

Definition stored_bound (n : N) : N := 2 * n + 3.

Lemma stored_detect x : detect_compression (gzip_signature ++ x) = Ok GZIP.
Proof.
  unfold detect_compression, starts_with. change (takeN (len gzip_signature) (gzip_signature ++ x)) with gzip_signature.
  rewrite beq_refl. assert (beq (takeN (len xz_signature) (gzip_signature ++ x)) xz_signature = false) as ->.
  { apply beq_neq. intros E. discriminate E. }
  rewrite andb_false_r. rewrite len_app. change (len gzip_signature) with 2. replace (2 <=? 2 + len x) with true by lia. reflexivity.
Qed.

Lemma stored_ok : codec_ok stored_bound GZIP stored.
Proof.
  exists (fun pend d o _ => o ++ pend = gzip_signature ++ framed d). split; [|reflexivity].
  intros pend d o fin H finish inp room Hroom Hne Hfin. unfold stored_bound. cbn [enc_step stored].
  assert (len o + len pend = 2 + 2 * len d) as Hlen. { rewrite <- len_app, H, len_app, len_framed. reflexivity. }
  destruct pend as [|b pend].
  - rewrite app_nil_r in H. change (@len N []) with 0 in Hlen. destruct inp as [|x inp].
    + destruct finish; [|exfalso; apply Hne; reflexivity]. exists [], 0, [0], true. split; [reflexivity|]. split; [apply N.le_0_l|]. split; [change (len [0]) with 1; lia|].
      split. { rewrite len_app. change (len [0]) with 1. unfold takeN. rewrite firstn_nil, app_nil_r. lia. }
      split; [reflexivity|]. split; [reflexivity|]. rewrite app_nil_r, H, <- app_assoc. split; [|apply stored_detect].
      apply stored_decodes. reflexivity.
    + exists [1; x], 1, [], false. split; [reflexivity|]. rewrite len_cons. split; [lia|]. split; [apply N.le_0_l|].
      change (takeN 1 (x :: inp)) with [x]. split. { rewrite app_nil_r, len_app. lia. }
      split; [|left; lia]. rewrite app_nil_r, framed_app, H, <- app_assoc. reflexivity.
  - rewrite len_cons in Hlen. exists pend, 0, [b], false. split; [reflexivity|]. split; [apply N.le_0_l|]. split; [change (len [b]) with 1; lia|].
    rewrite takeN_0, app_nil_r. split. { rewrite len_app. change (len [b]) with 1. lia. }
    split; [|right; discriminate]. rewrite <- app_assoc. exact H.
Qed.

Definition stored_codecs (t : ctype) : option codec := match t with GZIP => Some stored | _ => None end.

Lemma stored_codecs_ok : codecs_ok stored_bound stored_codecs.
Proof.
  split; [intros a b H; unfold stored_bound; lia|]. intros t cd H. destruct t; cbn in H; try discriminate. injection H as <-. apply stored_ok.
Qed.

Definition big : nat := N.to_nat (2 * CHUNK_LIMIT_MAX + 3).
Lemma big_enough : enough big.
Proof. unfold enough, big. rewrite N2Nat.id. lia. Qed.
