(** Reading a blob through its index: it succeeds when the chunks are there. *)
From Verif Require Import Base Chunker ChunkId FeatureFlags Posix ChunkFile Store StoreSpec StoreProofs1 StoreProofs2 StoreProofs6 StoreProofs9 StoreProofs10 Index IndexSpec IndexProofs IndexProofs2 IndexProofs5 SyncGet SyncGetSpec SyncGetProofs1 SyncGetProofs4 SyncGetProofs5 SyncGetProofs6 SyncWrite SyncWriteSpec SyncWriteProofs1.
From Verif Require Properties_SyncGet.
Local Open Scope N_scope.

Section Complete.
Context (codecs : ctype -> option codec) (bound : N -> N) (HC : codecs_ok bound codecs) (digest : dtype -> list N -> list N) (vtd : list N) (fuel : nat) (Hf : enough fuel).

(** No remotes: a chunk that one of the places has is delivered, and the handles stay. *)
Lemma sync_get_here s w id p : usable codecs digest vtd fuel s -> 
  first_of (passed digest w id UNCOMPRESSED) (serves codecs digest bound (sy_ctype s) w id p UNCOMPRESSED) (local_sources s) ->
  ends false w (sync_get codecs digest fuel s id UNCOMPRESSED) (fun w' x => same_files w w' /\ x = (s, Ok (p, UNCOMPRESSED))).
Proof.
  intros U F. unfold sync_get. apply ends_bind.
  eapply ends_mono; [|apply ends_and; [exact (Properties_SyncGet.local_serve codecs bound HC digest vtd fuel Hf id UNCOMPRESSED s w p U F)|intros w' r Hx; exact Hx]].
  cbv beta. intros w' r [(b & e & -> & R & E) X]. rewrite (E ltac:(discriminate)) in *. cbn in R. subst b. cbn.
  destruct (get_local_exec codecs bound HC digest vtd fuel id UNCOMPRESSED false s w w' _ U X) as [Sm _]. split; [exact Sm|reflexivity].
Qed.

Context (f mi av ma : N) (d : dtype) (cs : list (list N)).
Let l := listing (digest d) cs.
Let data := index_image f mi av ma l.
Context (P : params_ok f mi av ma) (C : chunks_ok ma l) (B : len l < 2 ^ 34).

(** Each chunk of the blob is found. *)
Definition all_served (s : sync) (w : Posix.world) : Prop :=
  forall c, In c cs -> first_of (passed digest w (digest d c) UNCOMPRESSED) (serves codecs digest bound (sy_ctype s) w (digest d c) c UNCOMPRESSED) (local_sources s).

Lemma all_served_same s w w' : same_files w w' -> all_served s w -> all_served s w'.
Proof.
  intros Sm A c I. eapply first_mono; [| |exact (A c I)].
  - intros x _ H. eapply passed_same; [exact Sm|exact H].
  - intros x _ H. eapply serves_same; [exact Sm|exact H].
Qed.

Let rinv := rinv codecs digest vtd fuel f mi av ma d cs.
Let index_at := index_at digest f mi av ma d cs.
Let at_end := at_end digest f mi av ma d cs.

(** How many chunks are left to be read from the index. *)
Definition left_over (pre : list (list N)) : nat := (length cs - length pre)%nat.

Lemma rounds_enough pre x : index_at pre x -> (1 + left_over pre < rounds x)%nat.
Proof.
  intros (A & _). destruct A as [_ _ _ _ _ _ _ A _]. unfold rounds, left_over. rewrite A. fold l data.
  assert (len data = 104 + 40 * len l) as DL by (apply image_len; apply C). assert (len l = len cs) as EL by (unfold l; rewrite listing_len; reflexivity).
  unfold len in *. lia.
Qed.

Lemma next_loop_total n : forall pos rd, rinv pos rd -> ~ at_end rd ->
  (forall pre, index_at pre (rd_index rd) -> 1 + left_over pre < n)%nat -> forall rd' r, next_loop n rd = (rd', r) -> rd_sync rd' = rd_sync rd /\
  (r = Ok None \/ r = Ok (Some FEof)).
Proof.
  induction n as [|n IH]; intros pos rd I NE L rd' r H; cbn [next_loop] in H.
  { exfalso. destruct I as (_ & _ & I). destruct I as [(pre & _ & A & _)|[(pre & c & post & _ & _ & A & _)|D]]; [specialize (L _ A); lia|specialize (L _ A); lia|apply NE; exact D]. }
  assert (forall rd0 pre, usable codecs digest vtd fuel (rd_sync rd0) -> rd_skip rd0 < two64 -> index_at pre (rd_index rd0) -> pos = len (concat pre) + rd_skip rd0 ->
    (1 + left_over pre < S n)%nat -> rd_sync rd0 = rd_sync rd -> 
    match Index.index_read_chunk (rd_index rd0) with
      | (Err EAGAIN, x) => (mkReader x (rd_sync rd0) None (rd_skip rd0), Ok (Some FPoll))
      | (Ok None, x) => (mkReader x (rd_sync rd0) None (rd_skip rd0), Ok (Some FEof))
      | (Ok (Some (id, _, size)), x) =>
        if size =? UINT64_MAX then (mkReader x (rd_sync rd0) None (rd_skip rd0), Err ESPIPE)
        else next_loop n (mkReader x (rd_sync rd0) (Some (id, size)) (rd_skip rd0))
      | (Err e, x) => (mkReader x (rd_sync rd0) None (rd_skip rd0), Err e)
      | (Abort, x) => (mkReader x (rd_sync rd0) None (rd_skip rd0), Abort)
      | (UB, x) => (mkReader x (rd_sync rd0) None (rd_skip rd0), UB)
      end = (rd', r) -> rd_sync rd' = rd_sync rd /\ (r = Ok None \/ r = Ok (Some FEof))) as K.
  { clear I NE L H. intros rd0 pre U S A EP Ln ES H. pose proof A as (_ & _ & (post & EC)). destruct post as [|c post].
    - rewrite app_nil_r in EC. rewrite <- EC in A. destruct (index_end digest f mi av ma d cs C B _ A) as (x' & X1 & X2). rewrite X1 in H. inversion H; subst rd' r. auto.
    - destruct (index_next digest f mi av ma d cs C B pre c post _ EC A) as (x' & X1 & X2). rewrite X1 in H.
      destruct (small_chunk digest f mi av ma d cs P C B c) as (S1 & S2 & S3); [rewrite EC; apply in_or_app; right; left; reflexivity|].
      replace (len c =? UINT64_MAX) with false in H by (symmetry; apply N.eqb_neq; lia).
      rewrite <- ES. refine (IH pos (mkReader x' (rd_sync rd0) (Some (digest d c, len c)) (rd_skip rd0)) _ _ _ rd' r H).
      + split; [exact U|]. split; [exact S|]. right. left. exists pre, c, post. cbn. auto.
      + intros (E & _). discriminate E.
      + cbn [rd_index]. intros pre2 A2. destruct A2 as (_ & R2 & (post2 & E2)), X2 as (_ & R1 & _).
        destruct R1 as (_ & _ & _ & _ & _ & _ & _ & _ & R1), R2 as (_ & _ & _ & _ & _ & _ & _ & _ & R2).
        rewrite R1 in R2. unfold left_over in *. rewrite EC in Ln |- *. rewrite !app_length in *. cbn in *. unfold len in R2. rewrite app_length in R2. cbn in R2. lia. }
  destruct I as (U & S & I). destruct (rd_next rd) as [[id size]|] eqn:EN.
  - destruct I as [(pre & E & _)|[(pre & c & post & E & EC & A & EP)|(E & _)]]; try congruence. inversion E; subst id size.
    destruct (N.ltb_spec (rd_skip rd) (len c)) as [LT|LT]; [inversion H; subst; auto|].
    apply (K _ (pre ++ [c])) in H; [exact H|exact U|cbn; lia|exact A| |apply L; exact A|reflexivity].
    cbn [rd_skip]. rewrite concat_app, len_app. cbn [concat]. rewrite app_nil_r. lia.
  - destruct I as [(pre & _ & A & EP)|[(pre & c & post & E & _)|(E & D)]]; try congruence.
    + apply (K rd pre) in H; auto.
    + exfalso. apply NE. split; assumption.
Qed.

(** A request of the decoder: it gets what the blob has up to the end of the chunk, or is told of the end. *)
Lemma request_ends s pos rd w : rinv pos rd -> ~ at_end rd -> rd_sync rd = s -> all_served s w ->
  ends false w (decoder_request codecs digest fuel true rd) (fun w' x => same_files w w' /\ rd_sync (fst x) = s /\
    (if pos <? len (concat cs)
     then exists pre c post skip, cs = pre ++ c :: post /\ pos = len (concat pre) + skip /\ skip < len c /\ snd x = Ok (FData (dropN skip c)) /\
            rinv (pos + len (dropN skip c)) (fst x) /\ ~ at_end (fst x)
     else snd x = Ok FEof)).
Proof.
  intros I NE ES A. unfold decoder_request. destruct (next_loop (rounds (rd_index rd)) rd) as [rd1 r1] eqn:NL.
  pose proof (next_loop_ok codecs digest vtd fuel f mi av ma d cs P C B _ _ _ _ _ I NE NL) as K.
  destruct (next_loop_total _ _ _ I NE (fun pre => rounds_enough pre _) _ _ NL) as [E1 [-> | ->]].
  - destruct K as ((U & S & _) & pre & c & post & EN & EC & LT & EP & AT). rewrite EN. cbn [negb]. rewrite E1, ES in *.
    apply ends_bind. eapply ends_mono; [|apply (sync_get_here s w _ c U); apply A; rewrite EC; apply in_or_app; right; left; reflexivity].
    cbv beta. intros w' x [Sm ->].
    destruct (small_chunk digest f mi av ma d cs P C B c) as (S1 & S2 & S3); [rewrite EC; apply in_or_app; right; left; reflexivity|].
    replace (len c =? UINT64_MAX) with false by (symmetry; apply N.eqb_neq; lia). rewrite N.eqb_refl. cbn [negb andb rd_skip rd_index].
    assert (pos < len (concat cs)) as PL by (rewrite EC, concat_app, len_app; cbn [concat]; rewrite len_app; lia).
    assert (concat (pre ++ [c]) = concat pre ++ c) as EC2 by (rewrite concat_app; cbn; rewrite app_nil_r; reflexivity).
    assert (forall rd2, rd_next rd2 = None -> rd_index rd2 = rd_index rd1 -> ~ at_end rd2) as NAE.
    { intros rd2 _ E2 (_ & _ & D). rewrite E2 in D. destruct AT as (_ & R & _). destruct R as (_ & _ & _ & _ & _ & _ & R & _). rewrite R in D.
      assert (len data = 104 + 40 * len l) as DL by (apply image_len; apply C). assert (len l = len cs) as EL by (unfold l; rewrite listing_len; reflexivity).
      fold l data in D. rewrite EC, !len_app in EL. rewrite len_app in D. rewrite len_cons in EL. change (len [c]) with 1 in D. lia. }
    destruct (N.ltb_spec 0 (rd_skip rd1)) as [Z|Z].
    + destruct (N.leb_spec (len c) (rd_skip rd1)) as [Z2|Z2]; [lia|]. cbn [ends fst snd rd_sync]. split; [exact Sm|]. split; [reflexivity|].
      destruct (N.ltb_spec pos (len (concat cs))) as [PL'|PL']; [|lia]. exists pre, c, post, (rd_skip rd1). repeat (split; [solve [auto]|]). split; [|apply NAE; reflexivity].
      split; [exact U|]. split; [cbn; unfold two64; lia|]. left. exists (pre ++ [c]). cbn. split; [reflexivity|]. split; [exact AT|]. rewrite EC2, len_app, len_dropN. lia.
    + assert (rd_skip rd1 = 0) as Z0 by lia. cbn [ends fst snd rd_sync]. split; [exact Sm|]. split; [reflexivity|].
      destruct (N.ltb_spec pos (len (concat cs))) as [PL'|PL']; [|lia]. exists pre, c, post, 0. rewrite Z0 in *. repeat (split; [solve [auto]|]).
      split; [|apply NAE; reflexivity]. change (dropN 0 c) with c.
      split; [exact U|]. split; [cbn; lia|]. left. exists (pre ++ [c]). cbn. split; [reflexivity|]. split; [exact AT|]. rewrite EC2, len_app. lia.
  - destruct K as (_ & K). cbn [ends fst snd]. split; [repeat split|]. split; [congruence|]. destruct (N.ltb_spec pos (len (concat cs))) as [PL'|PL']; [lia|reflexivity].
Qed.

(** Everything, from the position to the end. *)
Lemma cut_before (pre : list (list N)) : forall post a c b, pre ++ post = a ++ c :: b -> len (concat pre) < len (concat a) + len c -> (length b < length post)%nat.
Proof.
  induction pre as [|x pre IH]; intros post a c b E L.
  - cbn in E. subst post. rewrite app_length. cbn. lia.
  - destruct a as [|y a]; cbn in E; injection E as -> E.
    + cbn [concat] in L. rewrite len_app in L. change (len (@nil N)) with 0 in L. lia.
    + cbn [concat] in L. rewrite !len_app in L. apply (IH post a c b E). lia.
Qed.

Lemma read_all_ends s : forall n pos rd w got, rinv pos rd -> ~ at_end rd -> rd_sync rd = s -> all_served s w ->
  (exists pre post, cs = pre ++ post /\ len (concat pre) <= pos /\ (length post < n)%nat) ->
  ends false w (read_all codecs digest fuel n rd got) (fun w' r => r = Ok (got ++ dropN pos (concat cs)) /\ same_files w w').
Proof.
  induction n as [|n IH]; intros pos rd w got I NE ES A (pre & post & EC & EP & LN); [lia|]. cbn [read_all]. apply ends_bind.
  eapply ends_mono; [|exact (request_ends s pos rd w I NE ES A)]. cbv beta. intros w' [rd' r] (Sm & ES' & X). cbn [fst snd] in *.
  destruct (N.ltb_spec pos (len (concat cs))) as [Z|Z].
  - destruct X as (a & c & b & skip & E1 & E2 & E3 & -> & I' & NE').
    assert (length b < length post)%nat as LB by (apply (cut_before pre post a c b); [congruence|lia]).
    assert (concat (a ++ [c]) = concat a ++ c) as EC2 by (rewrite concat_app; cbn; rewrite app_nil_r; reflexivity).
    assert (concat cs = concat a ++ c ++ concat b) as EB by (rewrite E1, concat_app; reflexivity).
    eapply ends_mono; [|apply (IH (pos + len (dropN skip c)) rd' w' (got ++ dropN skip c)); auto].
    + cbv beta. intros w2 r [-> Sm2]. split; [|eapply same_files_trans; eassumption]. f_equal. rewrite <- app_assoc. f_equal. rewrite EB, E2, len_dropN.
      assert (dropN (len (concat a) + skip) (concat a ++ c ++ concat b) = dropN skip c ++ concat b) as D1.
      { rewrite dropN_app_ge by lia. replace (len (concat a) + skip - len (concat a)) with skip by lia. apply dropN_app_le. lia. }
      assert (dropN (len (concat a) + skip + (len c - skip)) (concat a ++ c ++ concat b) = concat b) as D2.
      { rewrite dropN_app_ge by lia. replace (len (concat a) + skip + (len c - skip) - len (concat a)) with (len c) by lia. apply dropN_app_exact. reflexivity. }
      rewrite D1, D2. reflexivity.
    + apply (all_served_same s w w' Sm A).
    + exists (a ++ [c]), b. split; [rewrite <- app_assoc; exact E1|]. split; [rewrite EC2, len_app, len_dropN; lia|lia].
  - subst r. cbn. rewrite dropN_all by lia. rewrite app_nil_r. auto.
Qed.
End Complete.
