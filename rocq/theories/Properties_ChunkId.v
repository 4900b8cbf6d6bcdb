(** C07: textual form of chunk ids. *)
From Verif Require Import Base ChunkId ChunkIdProofs.
Local Open Scope N_scope.

(** The alphabet: 0-9a-f. *)
Definition is_lower_hex (c : N) : bool := ((48 <=? c) && (c <=? 57)) || ((97 <=? c) && (c <=? 102)).

(** C07. Formatting gives 64 lower case hex digits, and parsing gives the id back. *)
Theorem chunk_id_round_trip :
  forall id, id_ok id = true ->
  length (chunk_id_format id) = 64%nat /\
  forallb is_lower_hex (chunk_id_format id) = true /\
  chunk_id_parse (chunk_id_format id) = Some id.
Proof.
  intros id H. split; [rewrite format_length; unfold id_ok, len in H; lia|]. split; [|apply parse_format, H].
  unfold id_ok in H. apply andb_true_iff in H as [_ H]. revert H. induction id as [|b id IH]; [reflexivity|].
  cbn [bytes_ok forallb]. intros H. apply andb_true_iff in H as [Hb H]. apply N.ltb_lt in Hb. rewrite format_cons. cbn [forallb].
  assert (H1 : N.shiftr b 4 < 16) by (rewrite N.shiftr_div_pow2; change (2^4) with 16; lia).
  assert (H2 : N.land b 15 < 16) by (change 15 with (N.ones 4); rewrite N.land_ones; change (2^4) with 16; lia).
  apply encode_char_ok in H1, H2. rewrite (IH H). unfold is_lower_hex. lia.
Qed.
Print Assumptions chunk_id_round_trip.

(** C07. Parsing accepts nothing else: any string accepted is the format of the id returned. *)
Theorem chunk_id_parse_exact :
  forall s id, cstr_ok s = true -> chunk_id_parse s = Some id -> id_ok id = true /\ s = chunk_id_format id.
Proof. exact parse_inv. Qed.
Print Assumptions chunk_id_parse_exact.

(** C07. Different ids have different file names in a store. *)
Theorem chunk_path_injective :
  forall prefix suffix a b, id_ok a = true -> id_ok b = true ->
  chunk_id_format_path prefix a suffix = chunk_id_format_path prefix b suffix -> a = b.
Proof. exact format_path_inj. Qed.
Print Assumptions chunk_path_injective.
(** C07. A chunk lives in the subdirectory named after the first two bytes of its id, under the whole id. *)
Theorem chunk_path_layout :
  forall prefix suffix id, id_ok id = true ->
  chunk_id_format_path prefix id suffix =
    prefix ++ chunk_id_format (firstn 2 id) ++ [47] ++ chunk_id_format id ++ suffix /\
  length (chunk_id_format (firstn 2 id)) = 4%nat.
Proof.
  intros prefix suffix id H. unfold id_ok in H. apply andb_true_iff in H as [H _]. apply N.eqb_eq in H.
  destruct id as [|a [|b id]]; try discriminate. split; [|reflexivity].
  unfold chunk_id_format_path. rewrite !format_cons. reflexivity.
Qed.
Print Assumptions chunk_path_layout.
Example c07_case : id_ok (map N.of_nat (seq 200 32)) = true /\
  firstn 6 (chunk_id_format (map N.of_nat (seq 200 32))) = [99; 56; 99; 57; 99; 97].
Proof. vm_compute. auto. Qed.

(** C07 (finding): ca_chunk_id_is_null looks at the first 8 bytes only. *)
Theorem chunk_id_is_null_refuted :
  exists id, id_ok id = true /\ chunk_id_is_null id = true /\ id <> repeat 0 32.
Proof. exists (repeat 0 8 ++ repeat 1 24). repeat split; vm_compute; try reflexivity; discriminate. Qed.
Print Assumptions chunk_id_is_null_refuted.
