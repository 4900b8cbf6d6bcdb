(** C01-C06: the chunker.  Specification: ChunkerSpec.v ([buz], [last48], [cfg_ok]). *)
From Verif Require Import Base Chunker ChunkerSpec ChunkerProofs ChunkerProofs2 SetSize.
Local Open Scope N_scope.

(** A configuration as set_size makes them, and a stream, used to show that hypotheses are met. *)
Definition ex_cfg : cfg := mkCfg 56 64 100 60.
Definition ex_stream : list N := map (fun i => (N.of_nat i * N.of_nat i * 7 + 3 * N.of_nat i) mod 256) (seq 0 700).
Definition ex_lens (r : res (list (list N))) : list N := match r with Ok l => map (@len N) l | _ => [] end.

(** C01. The chunks of a stream do not depend on the pieces in which it arrives, and chunking never
    fails. *)
Theorem chunking_independent_of_pieces :
  forall (c : cfg) (ps ps' : list (list N)),
  cfg_ok c = true -> concat ps = concat ps' ->
  chunk_stream c ps = chunk_stream c ps' /\ exists l, chunk_stream c ps = Ok l.
Proof.
  intros c ps ps' Hc He. rewrite !chunk_stream_spec by exact Hc. rewrite He. split; [reflexivity|]. eexists; reflexivity.
Qed.
Print Assumptions chunking_independent_of_pieces.
Example c01_case : (length (ex_lens (chunk_stream ex_cfg [firstn 55 ex_stream; []; skipn 55 ex_stream])) > 5)%nat.
Proof. vm_compute. lia. Qed.

(** C01, for the scanner itself: scanning [a] then [b] finds the border that scanning [a ++ b] finds. *)
Theorem scan_independent_of_pieces :
  forall (c : cfg) (s : chunker) (a b : list N),
  cfg_ok c = true -> reach c s ->
  exists o s1, ca_chunker_scan c s a = Ok (o, s1) /\
  match o with
  | Some k => border (ca_chunker_scan c s (a ++ b)) = Some k
  | None => border (ca_chunker_scan c s (a ++ b)) = option_map (N.add (len a)) (border (ca_chunker_scan c s1 b))
  end.
Proof. exact scan_split_lemma. Qed.
Print Assumptions scan_independent_of_pieces.
Example c01_scan_case : exists s1, ca_chunker_scan ex_cfg chunker_init (firstn 50 ex_stream) = Ok (None, s1) /\
  exists k, border (ca_chunker_scan ex_cfg s1 (skipn 50 ex_stream)) = Some k /\
            border (ca_chunker_scan ex_cfg chunker_init ex_stream) = Some (50 + k).
Proof. eexists. split; [vm_compute; reflexivity|]. eexists. split; vm_compute; reflexivity. Qed.

(** C02. Lossless: the chunks concatenated are the stream; none is empty; a reported border lies within
    the data scanned. *)
Theorem chunking_lossless :
  forall (c : cfg) (ps : list (list N)) l,
  cfg_ok c = true -> chunk_stream c ps = Ok l ->
  concat l = concat ps /\ Forall (fun x => x <> []) l.
Proof.
  intros c ps l Hc H. rewrite chunk_stream_spec in H by exact Hc. injection H as <-.
  split; [apply spec_chunks_concat|]. apply Forall_forall. intros x Hx. eapply spec_chunks_nonempty, Hx.
Qed.
Print Assumptions chunking_lossless.
Theorem scan_border_within_data :
  forall (c : cfg) (s : chunker) (p : list N) k s',
  cfg_ok c = true -> reach c s -> ca_chunker_scan c s p = Ok (Some k, s') -> 1 <= k <= len p.
Proof. exact scan_reach_bound. Qed.
Print Assumptions scan_border_within_data.
Theorem scan_never_fails :
  forall (c : cfg) (s : chunker) (p : list N),
  cfg_ok c = true -> reach c s -> exists o s', ca_chunker_scan c s p = Ok (o, s').
Proof. exact scan_reach_ok. Qed.
Print Assumptions scan_never_fails.
Example c02_case : exists l, chunk_stream ex_cfg [ex_stream] = Ok l /\ (length l > 5)%nat.
Proof. eexists. split; [vm_compute; reflexivity|cbn; lia]. Qed.

(** C03. Sizes: all chunks but the last are at least min (and 48), exactly avg in fixed mode; all are at
    most max, if max is at least the window size 48 or in fixed mode. *)
Theorem chunk_sizes_bounded_partial :
  forall (c : cfg) (ps : list (list N)) pre x post,
  cfg_ok c = true -> (is_fixed c = true \/ 48 <= c_max c) ->
  chunk_stream c ps = Ok (pre ++ x :: post) ->
  len x <= c_max c /\
  (post <> [] -> c_min c <= len x /\ (is_fixed c = true -> len x = c_avg c)).
Proof.
  intros c ps pre x post Hc Hm H. rewrite chunk_stream_spec in H by exact Hc. injection H as H.
  split; [eapply chunk_le_max; eauto; rewrite H; apply in_or_app; right; left; reflexivity|].
  intros Hp. destruct (chunk_ge_min _ _ _ _ _ Hc H Hp) as [Hfix Hvar].
  destruct (is_fixed c) eqn:Hf; [|split; [apply Hvar; reflexivity|discriminate]].
  specialize (Hfix eq_refl). split; [|intros _; exact Hfix]. unfold is_fixed in Hf. lia.
Qed.
Print Assumptions chunk_sizes_bounded_partial.
Example c03_case : cfg_ok ex_cfg = true /\ 48 <= c_max ex_cfg /\
  exists pre x post, chunk_stream ex_cfg [ex_stream] = Ok (pre ++ x :: post) /\ pre <> [] /\ post <> [].
Proof. split; [reflexivity|]. split; [vm_compute; congruence|].
  destruct (chunk_stream ex_cfg [ex_stream]) as [l| | |] eqn:E; vm_compute in E; try discriminate E.
  injection E as <-. do 3 eexists. split; [match goal with |- Ok (?a :: ?b :: ?r) = _ => exact (eq_refl (Ok ([a] ++ b :: r))) end|].
  split; discriminate. Qed.

(** C03, the full statement is false of the code: a configuration set_size accepts, with max below 48,
    yields a chunk longer than max (the maximum is only tested once the 48 byte window is full). *)
Theorem chunk_size_max_refuted :
  exists (geo : N -> N -> N) (c : cfg) (x : list N),
  ca_chunker_set_size geo chunker_init 1 2 4 = Ok c /\
  chunk_stream c [repeat 0 100] = Ok [x; x; repeat 0 4] /\ len x = 48 /\ c_max c = 4.
Proof.
  exists (fun _ _ => 0), (mkCfg 1 2 4 1), (repeat 0 48). repeat split; vm_compute; reflexivity.
Qed.
Print Assumptions chunk_size_max_refuted.

(** C04. Where the cuts are: a chunk that is followed by another one ends at the first position n >=
    max(min, 48) at which the size reaches max or the hash of the 48 bytes before n hits the
    discriminator; and the last chunk has no such position before its end. *)
Theorem cut_positions :
  forall (c : cfg) (ps : list (list N)) pre x post,
  cfg_ok c = true -> is_fixed c = false ->
  chunk_stream c ps = Ok (pre ++ x :: post) ->
  let candidate n := N.max (c_min c) 48 <= n /\
       (c_max c <= n \/ buz (last48 (firstn (N.to_nat n) x)) mod c_disc c = c_disc c - 1) in
  (forall n, 1 <= n < len x -> ~ candidate n) /\ (post <> [] -> candidate (len x)).
Proof.
  intros c ps pre x post Hc Hf H. rewrite chunk_stream_spec in H by exact Hc. injection H as H.
  destruct (spec_chunks_all _ _ _ _ _ H) as (_ & Hn & Hcut). cbv zeta. split.
  - intros n Hr [H1 H2]. unfold len in Hr. specialize (Hn (N.to_nat n) ltac:(lia)).
    unfold cut_here in Hn. rewrite Hf in Hn.
    assert (Hl : len (firstn (N.to_nat n) x) = n) by (unfold len; rewrite firstn_length; lia).
    rewrite Hl in Hn. lia.
  - intros Hp. specialize (Hcut Hp). unfold cut_here in Hcut. rewrite Hf in Hcut.
    rewrite firstn_all2 by (unfold len; lia). lia.
Qed.
Print Assumptions cut_positions.
(** C04. The hash kept by rolling is the hash from scratch of the last 48 bytes. *)
Theorem rolling_hash_is_window_hash :
  forall (c : cfg) (ps : list (list N)), cfg_ok c = true -> is_fixed c = false ->
  forall s, write_pieces c split_init ps = Ok ([], s) ->
  N.max (c_min c) 48 <= len (concat ps) ->
  ck_h (sp_ck s) = buz (last48 (concat ps)).
Proof. exact rolling_hash. Qed.
Print Assumptions rolling_hash_is_window_hash.
Example c04_case : exists s, write_pieces (mkCfg 50 64 500 1000003) split_init [firstn 60 ex_stream; firstn 70 (skipn 60 ex_stream)] = Ok ([], s)
  /\ ck_h (sp_ck s) <> 0.
Proof. eexists. split; [vm_compute; reflexivity|vm_compute; congruence]. Qed.

(** C05. Resynchronisation: if the chunks of [a1 ++ t] and those of [a2 ++ t] both have a border where
    [t] begins, the chunks of [t] are the same in both. *)
Theorem chunking_resynchronises :
  forall (c : cfg) (ps1 ps2 : list (list N)) (a1 a2 t : list N) cs1 r1 cs2 r2,
  cfg_ok c = true ->
  concat ps1 = a1 ++ t -> concat ps2 = a2 ++ t ->
  chunk_stream c ps1 = Ok (cs1 ++ r1) -> concat cs1 = a1 ->
  chunk_stream c ps2 = Ok (cs2 ++ r2) -> concat cs2 = a2 ->
  r1 = r2.
Proof.
  intros c ps1 ps2 a1 a2 t cs1 r1 cs2 r2 Hc E1 E2 H1 C1 H2 C2.
  rewrite chunk_stream_spec in H1, H2 by exact Hc. rewrite E1 in H1. rewrite E2 in H2.
  injection H1 as H1. injection H2 as H2. eapply resync_lemma; eassumption.
Qed.
Print Assumptions chunking_resynchronises.
Example c05_case : exists cs1 cs2 r,
  chunk_stream ex_cfg [ex_stream] = Ok (cs1 ++ r) /\ chunk_stream ex_cfg [repeat 0 100 ++ ex_stream] = Ok (cs2 ++ r)
  /\ (length r >= 3)%nat /\ concat cs1 <> concat cs2.
Proof.
  destruct (chunk_stream ex_cfg [ex_stream]) as [l| | |] eqn:E; vm_compute in E; try discriminate E. injection E as <-.
  destruct (chunk_stream ex_cfg [repeat 0 100 ++ ex_stream]) as [l| | |] eqn:E; vm_compute in E; try discriminate E. injection E as <-.
  match goal with |- context [Ok ?l = _] =>
    exists [], [repeat 0 100], l end.
  split; [reflexivity|]. split; [reflexivity|]. split; [cbn; lia|vm_compute; discriminate].
Qed.

(** C06. What ca_chunker_set_size may do when it succeeds; on failure nothing is stored. *)
Theorem set_size_consistent :
  forall geo (s : chunker) min avg max c,
  ca_chunker_set_size geo s min avg max = Ok c ->
  (1 <= c_min c /\ c_min c <= c_avg c /\ c_avg c <= c_max c /\ c_max c <= 134217728) /\
  (c_min c <= c_disc c /\ c_disc c <= c_max c) /\
  (min <> 0 -> c_min c = min) /\ (avg <> 0 -> c_avg c = avg) /\ (max <> 0 -> c_max c = max) /\
  ck_wsize s = 0.
Proof. exact set_size_ok. Qed.
Print Assumptions set_size_consistent.
Theorem set_size_never_asserts :
  forall geo (s : chunker) min avg max, ca_chunker_set_size geo s min avg max <> Abort.
Proof. exact set_size_no_abort. Qed.
Print Assumptions set_size_never_asserts.
(** The hypotheses [cfg_ok] of C01-C05 are what set_size guarantees. *)
Theorem set_size_establishes_cfg_ok :
  forall geo s min avg max c, ca_chunker_set_size geo s min avg max = Ok c -> cfg_ok c = true.
Proof. exact set_size_cfg_ok. Qed.
Print Assumptions set_size_establishes_cfg_ok.
Example c06_case : ca_chunker_set_size (fun _ _ => 0) chunker_init 0 65536 0 = Ok (mkCfg 16384 65536 262144 49535).
Proof. vm_compute. reflexivity. Qed.
(** C06, false of the code: an average of 16 MiB (accepted by the range check) makes the discriminator formula
    convert a negative double to size_t, which is undefined behaviour. *)
Theorem set_size_defined_refuted :
  exists geo s avg, 1 <= avg <= 134217728 /\ ca_chunker_set_size geo s 0 avg 0 = UB.
Proof. exists (fun _ _ => 0), chunker_init, 16777216. split; [lia|vm_compute; reflexivity]. Qed.
Print Assumptions set_size_defined_refuted.
(** C06, false of the code: the "already started" test looks at the window only, so that sizes can be changed
    in the middle of a fixed size chunk, and the next scan hits an assertion. *)
Theorem set_size_refused_once_started_refuted :
  exists geo c s c', ca_chunker_set_size geo chunker_init 10 10 10 = Ok c /\
    ca_chunker_scan c chunker_init [1; 2; 3; 4; 5] = Ok (None, s) /\
    ca_chunker_set_size geo s 4 4 4 = Ok c' /\
    ca_chunker_scan c' s [6] = Abort.
Proof.
  exists (fun _ _ => 0), (mkCfg 10 10 10 10), (mkChunker 0 0 5 (repeat 0 48)), (mkCfg 4 4 4 4).
  repeat split; vm_compute; reflexivity.
Qed.
Print Assumptions set_size_refused_once_started_refuted.
