(** Histories; storing and retrieving; the size limit. *)
From Verif Require Import Base ChunkId ChunkIdProofs Posix PosixProofs ChunkFile Store StoreSpec StoreProofs1 StoreProofs2 StoreProofs3 StoreProofs4 StoreProofs5 StoreProofs6 StoreProofs9 StoreProofs10.
Local Open Scope N_scope.
Local Opaque BUFFER_SIZE CHUNK_LIMIT_MAX CHUNK_LIMIT_MIN chunk_id_format_path.

Lemma store_is_contains codecs w root m : store_is codecs w root m <-> contains codecs w root m.
Proof.
  unfold store_is, contains. split; intros H id Hid; specialize (H id Hid); destruct (m id); try exact H.
  - unfold present. destruct H as [-> ->]. reflexivity.
  - split; eapply present_false; eauto.
Qed.

Section Hist.
Context (codecs : ctype -> option codec) (bound : N -> N) (HC : codecs_ok bound codecs).

Definition sizes (m : list N -> option (list N)) : Prop := forall id p, m id = Some p -> CHUNK_LIMIT_MIN <= len p < CHUNK_LIMIT_MAX.

Lemma sizes_with m id x : sizes m -> (forall p, x = Some p -> CHUNK_LIMIT_MIN <= len p < CHUNK_LIMIT_MAX) -> sizes (map_with m id x).
Proof. intros H Hx i p. unfold map_with. destruct (beq id i); auto. apply H. Qed.

Lemma history_map digest vtd fuel root w h w' : enough fuel ->
  history codecs digest vtd fuel root w h w' -> forall m, sizes m -> contains codecs w root m ->
  exists m', mapped codecs m h m' /\ contains codecs w' root m'.
Proof.
  intros Hf H. induction H as [w|w st id eff data p w1 st' r h w2 Hr Hid Hrep Hl Hp Hx _ IH|w st id w1 r h w2 Hr Hid Hx _ IH|w st id des w1 r h w2 Hr Hid Hx _ IH|w id w1 r h w2 Hid Hx _ IH]; intros m Hs Hm.
  - exists m. split; [constructor|exact Hm].
  - destruct (store_put_map codecs bound HC true vtd fuel w st root id eff data p m w1 st' r Hr Hid Hrep Hl Hm Hx) as (_ & _ & [[H1 H2]|[H1 H2]]).
    + destruct (IH (map_with m id (Some p))) as (m' & A & B); [apply sizes_with; [exact Hs|intros q Hq; congruence]|exact H1|]. exists m'. split; [constructor; assumption|exact B].
    + destruct (IH m Hs H1) as (m' & A & B). exists m'. split; [|exact B]. destruct r as [[]|e| |]; [congruence|apply m_put_fail; exact A..].
  - destruct (store_has_exec _ _ _ _ _ _ _ Hr Hx) as [-> Hb]. destruct (IH m Hs Hm) as (m' & A & B). exists m'. split; [|exact B].
    destruct r as [b|e| |]; try (apply m_has_fail; exact A). rewrite (Hb b eq_refl).
    assert (present w root id = match m id with Some _ => true | None => false end) as ->.
    { specialize (Hm id Hid). destruct (m id); [eapply holds_present; exact Hm|exact Hm]. }
    constructor. exact A.
  - assert (same_files w w1) as Hsf by (eapply reads_exec; [apply reads_get|exact Hx]).
    destruct (IH m Hs (contains_same _ _ _ _ _ Hsf Hm)) as (m' & A & B). exists m'. split; [|exact B].
    destruct r as [[[st' b] e]|er| |]; try (apply m_get_fail; exact A).
    destruct (store_get_exec codecs bound HC true fuel digest w st root id des w1 st' b e Hf Hr Hx) as [Hpres Hrep].
    specialize (Hm id Hid). destruct (m id) as [p|] eqn:E; [|congruence]. eapply m_get; [exact E| |exact A]. apply Hrep; [exact Hm|]. eapply Hs; exact E.
  - destruct (remove_map codecs true w root id m w1 r Hid Hm Hx) as [Hor Hok].
    assert (contains codecs w1 root (map_with m id None) \/ (contains codecs w1 root m /\ is_ok r = false)) as [Hc|[Hc Hr]].
    { destruct r as [[]|e| |]; [left; apply Hok; reflexivity|..]; (destruct Hor as [Hor|Hor]; [right; split; [exact Hor|reflexivity]|left; exact Hor]). }
    + destruct (IH _ (sizes_with m id None Hs ltac:(discriminate)) Hc) as (m' & A & B). exists m'. split; [constructor; exact A|exact B].
    + destruct (IH m Hs Hc) as (m' & A & B). exists m'. split; [rewrite Hr; apply m_remove_fail; exact A|exact B].
Qed.

(** Put, then get by any handle on the same directory, in any form. *)
Lemma put_get digest vtd fuel w root m st1 st2 id effective data p desired :
  enough fuel -> contains codecs w root m -> m id = None -> id_ok id = true ->
  st_root st1 = Some root -> st_root st2 = Some root -> store_ok st2 -> named digest st2 id p ->
  represents codecs effective data p -> CHUNK_LIMIT_MIN <= len data < CHUNK_LIMIT_MAX -> CHUNK_LIMIT_MIN <= len p < CHUNK_LIMIT_MAX ->
  (name_at w (subdir root id) = None \/ name_at w (subdir root id) = Some NDir) ->
  (forall v, name_at w (chunk_id_format_path root id (tmp_suffix v)) = None) ->
  (exists ct cd, st_ctype st1 = Some ct /\ codecs ct = Some cd) -> (exists ct cd, st_ctype st2 = Some ct /\ codecs ct = Some cd) ->
  bound (len p) < CHUNK_LIMIT_MAX ->
  ends false w (store_put codecs vtd fuel st1 id effective data) (fun w1 x => snd x = Ok tt /\
    ends false w1 (store_get codecs digest fuel st2 id desired) (fun w2 r => get_result codecs w1 w2 st2 desired p r)).
Proof.
  intros Hf Hm Hno Hid Hr1 Hr2 Hok Hnm Hrep Hld Hlp Hsub Htmp (ct1 & cd1 & Ht1 & Hc1) (ct2 & cd2 & Ht2 & Hc2) Hb.
  assert (present w root id = false) as Hpres. { specialize (Hm id Hid). rewrite Hno in Hm. exact Hm. }
  eapply ends_mono; [|apply ends_and; [apply (store_put_ends codecs bound HC vtd fuel w st1 root id effective data p); try assumption; [lia|auto|]|intros w1 x Hx; exact Hx]].
  - cbv beta. intros w1 [st' r] [Hs Hx]. cbn [snd] in *. subst r. split; [reflexivity|].
    destruct (store_put_map codecs bound HC false vtd fuel w st1 root id effective data p m w1 st' (Ok tt) Hr1 Hid Hrep ltac:(lia) Hm Hx) as (_ & _ & [[H1 _]|[_ H1]]); [|congruence].
    apply (store_get_ok codecs bound digest fuel w1 st2 root id desired p); try assumption.
    + specialize (H1 id Hid). unfold update in H1. rewrite beq_refl in H1. exact H1.
    + intros _ _. exists ct2, cd2. auto.
  - intros _ _. exists ct1, cd1. auto.
Qed.

(** At the limit: stored, but not to be had again. *)
Lemma limit_chunk digest vtd fuel w root st id data :
  enough fuel -> present w root id = false -> id_ok id = true ->
  st_root st = Some root -> st_compression st <> COMPRESSED -> st_mkdir_done st = true -> len data = CHUNK_LIMIT_MAX ->
  (name_at w (subdir root id) = None \/ name_at w (subdir root id) = Some NDir) ->
  (forall v, name_at w (chunk_id_format_path root id (tmp_suffix v)) = None) ->
  ends false w (store_put codecs vtd fuel st id UNCOMPRESSED data) (fun w1 x => snd x = Ok tt /\
    ends false w1 (store_get codecs digest fuel st id UNCOMPRESSED) (fun _ r => r = Err EBADMSG)).
Proof.
  intros Hf Hpres Hid Hr Hcomp Hmk Hl Hsub Htmp. assert (CHUNK_LIMIT_MIN <= CHUNK_LIMIT_MAX) as Hmm by (intro H; discriminate).
  assert (form UNCOMPRESSED (st_compression st) = UNCOMPRESSED) as Efc by (unfold form; destruct (st_compression st); [reflexivity|congruence|reflexivity]).
  assert (represents codecs UNCOMPRESSED data data) as Hrep by reflexivity.
  eapply ends_mono; [|apply ends_and; [apply (store_put_ends codecs bound HC vtd fuel w st root id UNCOMPRESSED data data); try assumption; [lia|rewrite Efc; congruence|rewrite Efc; intros _ H; discriminate]|intros w1 x Hx; exact Hx]].
  cbv beta. intros w1 [st' r] [Hs Hx]. cbn [snd] in *. subst r. split; [reflexivity|].
  unfold store_put in Hx. rewrite Hr in Hx. cbn [pbind] in Hx. rewrite Hr, Hmk in Hx. cbn [pbind] in Hx.
  apply exec_bind in Hx. destruct Hx as (w2 & r & Hx & Hy). apply exec_ret_inv in Hy. destruct Hy as [-> Hy]. injection Hy as -> <-.
  apply (save_exec codecs bound HC (CHUNK_LIMIT_MAX + 1) ltac:(lia)) with (p := data) in Hx; [|exact Hid|exact Hrep|lia].
  rewrite Efc in Hx. destruct Hx as (_ & _ & _ & Hst). destruct (Hst eq_refl) as (_ & content & Hfile & Hrc & _). cbn in Hrc. subst content.
  unfold store_get. rewrite Hr. apply ends_bind. unfold chunk_file_load. cbn [compression_eqb].
  apply ends_open. intros w3 r Hsm Hn.
  change (chunk_id_format_path root id []) with (chunk_name root id UNCOMPRESSED) in Hn.
  destruct (file_at_inv _ _ _ Hfile) as (i & Hi1 & Hi2). rewrite Hi1 in Hn. destruct Hn as (fd & -> & Hrd).
  apply ends_bind. eapply ends_mono; [|apply (load_fd_ok fuel w3 fd data [] 0 (Hrd _ Hi2)); unfold enough in Hf; lia].
  cbv beta. intros w4 r4 [_ ->]. replace (CHUNK_LIMIT_MAX <=? 0 + len data) with true by lia. rewrite orb_true_r. reflexivity.
Qed.
End Hist.
