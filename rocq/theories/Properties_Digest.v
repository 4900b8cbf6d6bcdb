(** C55: the digests an encoder and a decoder report are those of the bytes they are said to be of. *)
From Verif Require Import Base FeatureFlags FeatureFlagsSpec ArchiveBase Bst Decoder DecoderSpec DecoderProofs DecoderProofs2 DecoderProofs3 DecoderProofs4 DecoderProofs5 DecoderProofs6 DecoderProofs7 DecoderProofs8 Properties_Decoder
  Encoder EncoderSpec Properties_Encoder ArchiveSpec RoundTrip5 Properties_RoundTrip Digest DigestSpec DigestProofs1 DigestProofs2 DigestProofs3 DigestProofs4 DigestProofs5.
Local Open Scope N_scope.

(** The algorithm for what is decoded: for an archive it is what the archive's flags say, for a blob it is the default. *)
Definition digest_type_of (mode : N) (i : list N) : digest_type := if S_ISDIR mode then archive_digest_type i else CA_DIGEST_SHA512_256.

Lemma type_eq mode i : atype i (negb (S_ISDIR mode)) = digest_type_of mode i.
Proof. unfold atype, digest_type_of. destruct (S_ISDIR mode); reflexivity. Qed.

Lemma reports_app H env i0 wp wh nk x : forall cur y, reports H env i0 wp wh nk cur (x ++ y) -> exists cur', reports H env i0 wp wh nk cur' y.
Proof.
  induction x as [|a x IH]; intros cur y R; [exists cur; exact R|]. destruct a as [[p e|b|p]|vp vh]; cbn [app reports] in R.
  - exact (IH _ _ R).
  - exact (IH _ _ R).
  - exact (IH _ _ R).
  - exact (IH _ _ (proj2 (proj2 R))).
Qed.
Lemma reports_file H env i0 wp wh nk x p e data p' vp vh y : forall cur,
  reports H env i0 wp wh nk cur (x ++ GSee (OFile p e) :: map GSee (map OByte data) ++ GSee (ODone p') :: GDigests vp vh :: y) ->
  pay_ok H i0 wp nk (Some (e, data)) vp /\ link_ok H env i0 wh nk (Some (e, data)) vh.
Proof.
  intros cur R. apply reports_app in R. destruct R as [c R]. cbn [reports] in R. apply reports_see in R. rewrite see_bytes in R. cbn [app reports] in R. tauto.
Qed.

(** C55. When decoding succeeds, the archive digest is that of the bytes of the archive: of all of the input but what is
    left over. *)
Theorem decoder_archive_digest :
  forall H env mode d a p h i o rest v, decoder_new mode = Ok d -> grun H env (d, digs_new a p h) i o (GFinished rest (Some v)) ->
  exists used, i = used ++ rest /\ v = if a then Ok (H (digest_type_of mode i) used) else Err ENOMEDIUM.
Proof.
  intros H env mode d a p h i o rest v D R.
  destruct (grun_reports H env i a p h (negb (S_ISDIR mode)) _ _ _ _ R d (digs_new a p h) None eq_refl (GI_new env i a p h _ _ _ D eq_refl)) as [_ (used & E & V)].
  exists used. split; [exact E|]. rewrite (V v eq_refl), type_eq. destruct a; reflexivity.
Qed.
Print Assumptions decoder_archive_digest.

(** C55. In whatever pieces the input comes, and whichever digests were asked for before: the payload digest that is
    reported when a file is complete is that of the contents shown of it. *)
Theorem decoder_payload_digest :
  forall H env mode d a p h i x path e data path' v vh y r, decoder_new mode = Ok d ->
  grun H env (d, digs_new a p h) i (x ++ GSee (OFile path e) :: map GSee (map OByte data) ++ GSee (ODone path') :: GDigests (Some v) vh :: y) r ->
  v = if p then if (S_ISREG (m_mode (dt_meta e)) || S_ISBLK (m_mode (dt_meta e)))%bool then Ok (H (digest_type_of mode i) data) else Err ENOTTY
      else Err ENOMEDIUM.
Proof.
  intros H env mode d a p h i x path e data path' v vh y r D R.
  destruct (grun_reports H env i a p h (negb (S_ISDIR mode)) _ _ _ _ R d (digs_new a p h) None eq_refl (GI_new env i a p h _ _ _ D eq_refl)) as [R1 _].
  apply reports_file in R1. destruct R1 as [R1 _]. rewrite (R1 v eq_refl), type_eq. destruct p; reflexivity.
Qed.
Print Assumptions decoder_payload_digest.

(** C55. And the hardlink digest is that of a part of the input, which is the file's records and its contents. *)
Theorem decoder_hardlink_digest :
  forall H env mode d a p h i x path e data path' vp v y r, decoder_new mode = Ok d ->
  grun H env (d, digs_new a p h) i (x ++ GSee (OFile path e) :: map GSee (map OByte data) ++ GSee (ODone path') :: GDigests vp (Some v) :: y) r ->
  if h then
    if S_ISDIR (m_mode (dt_meta e)) then v = Err EISDIR
    else exists pre records post, i = pre ++ (records ++ data) ++ post /\ v = Ok (H (digest_type_of mode i) (records ++ data))
  else v = Err ENOMEDIUM.
Proof.
  intros H env mode d a p h i x path e data path' vp v y r D R.
  destruct (grun_reports H env i a p h (negb (S_ISDIR mode)) _ _ _ _ R d (digs_new a p h) None eq_refl (GI_new env i a p h _ _ _ D eq_refl)) as [R1 _].
  apply reports_file in R1. destruct R1 as [_ R1]. specialize (R1 v eq_refl). rewrite type_eq in R1.
  destruct h; cbn [negb] in R1; [|exact R1]. destruct (S_ISDIR (m_mode (dt_meta e))); [exact R1|].
  destruct R1 as (pre & ent & post & E & V & _). eauto.
Qed.
Print Assumptions decoder_hardlink_digest.

(** C55. What the hardlink digest is for: two files with the same one, of the same archive or of two, have the same meta
    data and the same contents; or here are two inputs of the hash function with the same digest. *)
Theorem hardlink_digest_identifies :
  forall H env m1 d1 a1 p1 h1 i1 x1 path1 e1 data1 path1' vp1 y1 r1 m2 d2 a2 p2 h2 i2 x2 path2 e2 data2 path2' vp2 y2 r2 v,
  decoder_new m1 = Ok d1 ->
  grun H env (d1, digs_new a1 p1 h1) i1 (x1 ++ GSee (OFile path1 e1) :: map GSee (map OByte data1) ++ GSee (ODone path1') :: GDigests vp1 (Some (Ok v)) :: y1) r1 ->
  decoder_new m2 = Ok d2 ->
  grun H env (d2, digs_new a2 p2 h2) i2 (x2 ++ GSee (OFile path2 e2) :: map GSee (map OByte data2) ++ GSee (ODone path2') :: GDigests vp2 (Some (Ok v)) :: y2) r2 ->
  e1 = e2 /\ data1 = data2 \/ collision H.
Proof.
  intros H env m1 d1 a1 p1 h1 i1 x1 path1 e1 data1 path1' vp1 y1 r1 m2 d2 a2 p2 h2 i2 x2 path2 e2 data2 path2' vp2 y2 r2 v D1 R1 D2 R2.
  destruct (grun_reports H env i1 a1 p1 h1 (negb (S_ISDIR m1)) _ _ _ _ R1 d1 _ None eq_refl (GI_new env i1 a1 p1 h1 _ _ _ D1 eq_refl)) as [Q1 _].
  destruct (grun_reports H env i2 a2 p2 h2 (negb (S_ISDIR m2)) _ _ _ _ R2 d2 _ None eq_refl (GI_new env i2 a2 p2 h2 _ _ _ D2 eq_refl)) as [Q2 _].
  apply reports_file in Q1, Q2. destruct Q1 as [_ Q1], Q2 as [_ Q2]. specialize (Q1 _ eq_refl). specialize (Q2 _ eq_refl).
  destruct h1; cbn [negb] in Q1; [|discriminate]. destruct h2; cbn [negb] in Q2; [|discriminate].
  destruct (S_ISDIR (m_mode (dt_meta e1))); [discriminate|]. destruct (S_ISDIR (m_mode (dt_meta e2))); [discriminate|].
  destruct Q1 as (_ & b1 & _ & _ & V1 & B1), Q2 as (_ & b2 & _ & _ & V2 & B2). injection V1 as V1. injection V2 as V2.
  destruct (list_eq_dec N.eq_dec (b1 ++ data1) (b2 ++ data2)) as [E | E].
  - left. eapply describes_same; eauto.
  - right. eexists _, _, _, _. split; [|transitivity v; [symmetry; exact V1|exact V2]]. congruence.
Qed.
Print Assumptions hardlink_digest_identifies.

(** C55. All of this is about any use of a decoder: every successful one can ask for the digests whenever there are some,
    and sees what it would see without. *)
Theorem decoder_digests_any_use :
  forall H env d i o rest g, drun env d i o (Finished rest) ->
  exists o' v, grun H env (d, g) i o' (GFinished rest (Some v)) /\ seen o' = o.
Proof. intros. eapply drun_grun; eauto. Qed.
Print Assumptions decoder_digests_any_use.

(** C55. When encoding succeeds, the archive digest is that of the bytes of the archive. *)
Theorem encoder_archive_digest :
  forall H ev f e a p h b o v, encoder_new f = Ok e -> gerun H ev (e, digs_new a p h) b o (GEFinished (Some v)) ->
  v = if a then Ok (H (feature_flags_to_digest_type (ev_ff ev)) b) else Err ENOMEDIUM.
Proof.
  intros H ev f e a p h b o v E R. destruct (GE_new ev a p h (fun _ => True) _ _ E I) as [G NE].
  destruct (gerun_reports H ev a p h (fun _ => True) (fun _ _ _ _ _ => I) (fun _ _ _ _ _ _ => I) _ _ _ _ R [] G NE) as [_ V]. rewrite (V v eq_refl). destruct a; reflexivity.
Qed.
Print Assumptions encoder_archive_digest.

(** C55. The payload digest an encoder reports when it is done with a file is that of the file's contents. *)
Theorem encoder_payload_digest :
  forall H ev f0 e a p h b o r f v vh, encoder_new f0 = Ok e -> gerun H ev (e, digs_new a p h) b o r -> In (EDone f (Some v) vh) o ->
  v = if p then if (S_ISREG (f_mode f) || S_ISBLK (f_mode f))%bool then Ok (H (feature_flags_to_digest_type (ev_ff ev)) (contents f)) else Err ENOTTY
      else Err ENOMEDIUM.
Proof.
  intros H ev f0 e a p h b o r f v vh E R In0. destruct (GE_new ev a p h (fun _ => True) _ _ E I) as [G NE].
  destruct (gerun_reports H ev a p h (fun _ => True) (fun _ _ _ _ _ => I) (fun _ _ _ _ _ _ => I) _ _ _ _ R [] G NE) as [F _]. rewrite Forall_forall in F. destruct (F _ In0) as [P _].
  rewrite (P v eq_refl). destruct p; reflexivity.
Qed.
Print Assumptions encoder_payload_digest.

(** C55. And the hardlink digest is that of what is in the archive about the file: its records and its contents. *)
Theorem encoder_hardlink_digest :
  forall H ev f0 e a p h b o r f vp v, encoder_new f0 = Ok e -> gerun H ev (e, digs_new a p h) b o r -> In (EDone f vp (Some v)) o ->
  if h then
    if S_ISDIR (f_mode f) then v = Err EISDIR
    else exists pre records post c c', b = pre ++ (records ++ contents f) ++ post /\ get_entry_data ev c f = Ok (records, c') /\
           v = Ok (H (feature_flags_to_digest_type (ev_ff ev)) (records ++ contents f))
  else v = Err ENOMEDIUM.
Proof.
  intros H ev f0 e a p h b o r f vp v E R In0. destruct (GE_new ev a p h (fun _ => True) _ _ E I) as [G NE].
  destruct (gerun_reports H ev a p h (fun _ => True) (fun _ _ _ _ _ => I) (fun _ _ _ _ _ _ => I) _ _ _ _ R [] G NE) as [F _]. rewrite Forall_forall in F. destruct (F _ In0) as [_ P].
  specialize (P v eq_refl). destruct h; cbn [negb app] in P; [|exact P]. destruct (S_ISDIR (f_mode f)); [exact P|].
  destruct P as (pre & ent & post & c & c' & P1 & P2 & P3 & _). exists pre, ent, post, c, c'. split; [exact P1|]. split; [exact (proj1 P2)|exact P3].
Qed.
Print Assumptions encoder_hardlink_digest.

(** C55. What casync's hardlink cache relies on: if a decoder reports, for a file of any archive, the hardlink digest that an
    encoder reported for a file of a tree that can be stored, then what is shown is that file as it is to be stored, with the
    same contents; or here are two inputs of the hash function with the same digest. *)
Theorem hardlink_digest_finds :
  forall H ev f0 e ae pe he b oe re f vp v env mode d a p h i x path en data vpd y rd, configured ev -> qsort_ok (ev_qsort ev) -> storable ev [] f0 ->
  encoder_new f0 = Ok e -> gerun H ev (e, digs_new ae pe he) b oe re -> In (EDone f vp (Some (Ok v))) oe -> len b < UINT64_MAX - 16 ->
  (de_expected env = UINT64_MAX \/ de_expected env = ev_ff ev) -> decoder_new mode = Ok d ->
  grun H env (d, digs_new a p h) i (x ++ GSee (OFile path en) :: map GSee (map OByte data) ++ GSee (ODone path) :: GDigests vpd (Some (Ok v)) :: y) rd ->
  (exists t, stores ev path f t /\ tree_obs path t = OFile path en :: map OByte data ++ [ODone path]) \/ collision H.
Proof.
  intros H ev f0 e ae pe he b oe re f vp v env mode d a p h i x path en data vpd y rd Cf Q St He R In0 Lb Ex Hd RD.
  destruct (GE_new ev ae pe he (SI ev) _ _ He (SI_new ev _ _ St He)) as [G NE].
  destruct (gerun_reports H ev ae pe he (SI ev) (SI_step ev Q) (SI_get ev Cf Q) _ _ _ _ R [] G NE) as [F _].
  rewrite Forall_forall in F. destruct (F _ In0) as [_ P]. specialize (P _ eq_refl). clear F G NE. cbn [app] in P.
  destruct he; cbn [negb] in P; [|discriminate]. destruct (S_ISDIR (f_mode f)) eqn:D; [discriminate|].
  destruct P as (pre & ent & post & c & c' & P1 & (P2 & e1 & n & up & P3 & P4 & P5 & P6) & P7 & P8). injection P7 as P7. subst f c.
  destruct P3 as (Ca & NO & _). rewrite P4 in NO. destruct NO as [Sf _].
  destruct (described ev Cf Q env path _ _ _ _ Ex (storable_anywhere ev _ path _ D Sf) Ca P2 D P8) as (t & T1 & T2 & T3).
  { apply (f_equal len) in P1. rewrite !len_app in P1. clear -P1 Lb. unfold HDR, UINT64_MAX in *. lia. }
  destruct (grun_reports H env i a p h (negb (S_ISDIR mode)) _ _ _ _ RD d _ None eq_refl (GI_new env i a p h _ _ _ Hd eq_refl)) as [Q1 _].
  apply reports_file in Q1. destruct Q1 as [_ Q1]. specialize (Q1 _ eq_refl).
  destruct h; cbn [negb] in Q1; [|discriminate].
  destruct (S_ISDIR (m_mode (dt_meta en))); [discriminate|].
  destruct Q1 as (_ & b1 & _ & _ & V1 & B1). injection V1 as V1.
  destruct (list_eq_dec N.eq_dec (b1 ++ data) (ent ++ contents (en_file n))) as [E | E].
  - left. destruct (describes_same _ _ _ _ _ _ _ _ _ B1 T2 E) as [-> ->]. eauto.
  - right. eexists _, _, _, _. split; [|transitivity v; [symmetry; exact V1|exact P7]]. congruence.
Qed.
Print Assumptions hardlink_digest_finds.

(** C55. Encoder and decoder agree: for a file tree that can be stored, the archive digest of the one is the archive
    digest of the other. *)
Theorem archive_digests_agree_partial :
  forall H ev f e p h b oe ve env mode d p' h' o rest vd, configured ev -> qsort_ok (ev_qsort ev) -> storable ev [] f -> S_ISDIR (f_mode f) = true ->
  encoder_new f = Ok e -> gerun H ev (e, digs_new true p h) b oe (GEFinished (Some ve)) -> len b < UINT64_MAX - 16 ->
  (de_expected env = UINT64_MAX \/ de_expected env = ev_ff ev) -> S_ISDIR mode = true -> decoder_new mode = Ok d ->
  grun H env (d, digs_new true p' h') b o (GFinished rest (Some vd)) ->
  rest = [] /\ exists x, ve = Ok x /\ vd = Ok x.
Proof.
  intros H ev f e p h b oe ve env mode d p' h' o rest vd C Q St Dr He R L Ex Dm Hd RD.
  assert (RE := gerun_eruns H ev _ _ _ _ R (Some ve) eq_refl). cbn [fst] in RE.
  assert (RR := grun_drun H env _ _ _ _ RD rest (Some vd) eq_refl). cbn [fst] in RR.
  destruct (archive_shown env ev f e b mode d _ _ C Q St Dr He RE L Ex Dm Hd RR) as (F & t & _ & A & _). injection F as ->.
  split; [reflexivity|]. eexists. split; [exact (encoder_archive_digest H ev f e true p h b oe ve He R)|].
  destruct (decoder_archive_digest H env mode d true p' h' b o [] vd Hd RD) as (used & E & ->). rewrite app_nil_r in E. subst used.
  unfold digest_type_of, archive_digest_type. rewrite Dm. do 2 f_equal. rewrite <- (arch_flags _ _ _ C A). reflexivity.
Qed.
Print Assumptions archive_digests_agree_partial.

(** * Cases *)
(** Steps a decoder that has all of the input, and asks for all digests there are. *)
Definition ask {S A} (get : S -> res (A * S)) (s : S) : option (res A) * S :=
  match get s with Ok (v, s') => (Some (Ok v), s') | Err e => (Some (Err e), s) | Abort => (Some Abort, s) | UB => (Some UB, s) end.
Lemma ask_asks {S} (get : S -> res (list N * S)) s : asks get s (fst (ask get s)) (snd (ask get s)).
Proof. unfold ask. destruct (get s) as [[v s']| | |] eqn:E; cbn [fst snd]; constructor; exact E. Qed.
Fixpoint gexec (fuel : nat) (H : digest_type -> list N -> list N) (env : denv) (s : gdec) : option (list gobs * goutcome) :=
  match fuel with
  | O => None
  | S fuel =>
      match gd_step env s with
      | Ok (R_FINISHED, s') => Some ([], GFinished (d_buf (fst s')) (fst (ask (gd_archive H) s')))
      | Ok (R_DONE_FILE, s1) =>
          let '(vp, s2) := ask (gd_payload H) s1 in
          let '(vh, s3) := ask (gd_hardlink H) s2 in
          match gexec fuel H env s3 with
          | Some (o, r) => Some (map GSee (observe R_DONE_FILE (fst s1)) ++ GDigests vp vh :: o, r)
          | None => None
          end
      | Ok (x, s') => match gexec fuel H env s' with Some (o, r) => Some (map GSee (observe x (fst s')) ++ o, r) | None => None end
      | _ => None
      end
  end.
Lemma gexec_grun H env fuel : forall s o r, gexec fuel H env s = Some (o, r) -> grun H env s [] o r.
Proof.
  induction fuel as [|fuel IH]; [discriminate|]. cbn [gexec]. intros s o r.
  destruct (gd_step env s) as [[x s1]| | |] eqn:E; try discriminate.
  assert (X : x <> R_FINISHED -> x <> R_DONE_FILE -> match gexec fuel H env s1 with Some (o, r) => Some (map GSee (observe x (fst s1)) ++ o, r) | None => None end = Some (o, r) ->
    grun H env s [] o r).
  { intros N1 N2. destruct (gexec fuel H env s1) as [[o' r']|] eqn:G; [|discriminate]. intros Q; injection Q as <- <-. eapply grun_step; eauto. }
  destruct x; try (apply X; discriminate); clear X.
  - destruct (ask (gd_payload H) s1) as [vp s2] eqn:A1. destruct (ask (gd_hardlink H) s2) as [vh s3] eqn:A2.
    destruct (gexec fuel H env s3) as [[o' r']|] eqn:G; [|discriminate]. intros Q; injection Q as <- <-.
    assert (B1 := ask_asks (gd_payload H) s1). rewrite A1 in B1. assert (B2 := ask_asks (gd_hardlink H) s2). rewrite A2 in B2. cbn [fst snd] in *.
    eapply grun_done; eauto.
  - intros Q; injection Q as <- <-. replace (d_buf (fst s1)) with (d_buf (fst s1) ++ []) at 1 by apply app_nil_r.
    eapply grun_finished; [exact E|apply ask_asks].
Qed.
Definition gdecode (H : digest_type -> list N -> list N) (mode : N) (i : list N) : option (list gobs * goutcome) :=
  match decoder_new mode with
  | Ok d => gexec (S (S (length i))) H envx (full d i, digs_new true true true)
  | _ => None
  end.
Lemma gdecode_grun H mode i o r : i <> [] -> gdecode H mode i = Some (o, r) ->
  exists d, decoder_new mode = Ok d /\ grun H envx (d, digs_new true true true) i o r.
Proof.
  unfold gdecode. destruct (decoder_new mode) as [d| | |] eqn:E; try discriminate. intros Ni G. exists d. split; [reflexivity|].
  apply gexec_grun in G. replace i with (i ++ []) by apply app_nil_r.
  set (d' := mkDec (d_state d) (d_ff d) (d_nodes d) (d_buf d ++ i) (d_eof d) (d_aoff d) (d_poff d) (d_step d) (d_bound d)).
  eapply (grun_put _ _ _ _ _ _ d'); [|apply grun_eof; exact G].
  unfold decoder_put_data. destruct (N.eqb_spec (len i) 0) as [Q | Q]; [elim Ni; apply len_zero_nil; exact Q|].
  unfold d'. rewrite (new_eof _ _ E). reflexivity.
Qed.
(** Runs an encoder, takes the data of a step at once, and asks for all digests there are. *)
Fixpoint geexec (fuel : nat) (H : digest_type -> list N -> list N) (ev : eenv) (s : genc) : option (list N * list eobs * geoutcome) :=
  match fuel with
  | O => None
  | S fuel =>
      match ge_step ev s with
      | Ok (ER_FINISHED, s') => Some ([], [], GEFinished (fst (ask (ge_archive H ev) s')))
      | Ok (ER_DONE_FILE, s1) =>
          let '(vp, s2) := ask (ge_payload H ev) s1 in
          let '(vh, s3) := ask (ge_hardlink H ev) s2 in
          match geexec fuel H ev s3 with
          | Some (b, o, r) => Some (b, map (fun f => EDone f vp vh) (file_now s1) ++ o, r)
          | None => None
          end
      | Ok (x, s1) =>
          if has_data x then
            match ge_get_data ev s1 65536 with
            | Ok (Some p, s2) => match geexec fuel H ev s2 with Some (b, o, r) => Some (p ++ b, o, r) | None => None end
            | Ok (None, s2) => geexec fuel H ev s2
            | _ => None
            end
          else None
      | _ => None
      end
  end.
Lemma geexec_gerun H ev fuel : forall s b o r, geexec fuel H ev s = Some (b, o, r) -> gerun H ev s b o r.
Proof.
  induction fuel as [|fuel IH]; [discriminate|]. cbn [geexec]. intros s b o r.
  destruct (ge_step ev s) as [[x s1]| | |] eqn:E; try discriminate.
  assert (X : (if has_data x then
            match ge_get_data ev s1 65536 with
            | Ok (Some p, s2) => match geexec fuel H ev s2 with Some (b, o, r) => Some (p ++ b, o, r) | None => None end
            | Ok (None, s2) => geexec fuel H ev s2
            | _ => None
            end
          else None) = Some (b, o, r) -> gerun H ev s b o r).
  { destruct (has_data x) eqn:HD; [|discriminate]. destruct (ge_get_data ev s1 65536) as [[[p|] s2]| | |] eqn:G; try discriminate.
    - destruct (geexec fuel H ev s2) as [[[b' o'] r']|] eqn:F; [|discriminate]. intros Q; injection Q as <- <- <-.
      eapply gerun_data; [exact E|exact HD| |apply IH, F]. eapply gfetch_first; [|exact G]. reflexivity.
    - intros F. eapply gerun_none; [exact E|exact HD|exact G|apply IH, F]. }
  destruct x; try exact X; clear X.
  - destruct (ask (ge_payload H ev) s1) as [vp s2] eqn:A1. destruct (ask (ge_hardlink H ev) s2) as [vh s3] eqn:A2.
    destruct (geexec fuel H ev s3) as [[[b' o'] r']|] eqn:G; [|discriminate]. intros Q; injection Q as <- <- <-.
    assert (B1 := ask_asks (ge_payload H ev) s1). rewrite A1 in B1. assert (B2 := ask_asks (ge_hardlink H ev) s2). rewrite A2 in B2. cbn [fst snd] in *.
    eapply gerun_done; eauto.
  - intros Q; injection Q as <- <- <-. eapply gerun_finished; [exact E|apply ask_asks].
Qed.
Definition gencode (H : digest_type -> list N -> list N) (ev : eenv) (f : fnode) : option (list N * list eobs * geoutcome) :=
  match encoder_new f with Ok e => geexec 1000 H ev (e, digs_new true true true) | _ => None end.

Lemma gencode_gerun H ev f b o r : gencode H ev f = Some (b, o, r) -> exists e, encoder_new f = Ok e /\ gerun H ev (e, digs_new true true true) b o r.
Proof.
  unfold gencode. destruct (encoder_new f) as [e| | |]; try discriminate. intros G. exists e. split; [reflexivity|]. apply geexec_gerun in G. exact G.
Qed.

(** A hash function that is its own preimage. *)
Definition H0 (t : digest_type) (b : list N) : list N := (match t with CA_DIGEST_SHA256 => 1 | CA_DIGEST_SHA512_256 => 2 end) :: b.
Definition rt_seen : list gobs := match gdecode H0 0x4000 rt_bytes with Some (o, _) => o | None => [] end.
Definition rt_done : list eobs := match gencode H0 rt_env rt_tree with Some (_, o, _) => o | None => [] end.
(** The tree of round_trip_case, whose flags call for SHA-256: the decoder shows the file "b" with the payload digest of its
    three bytes, and a hardlink digest of 183 bytes which begin with an ENTRY record. The encoder reports the same ones. *)
Definition b_payload : list N := 1 :: [7; 8; 9].
Definition b_hardlink : list N := match nth 9 rt_seen (GDigests None None) with GDigests _ (Some (Ok v)) => v | _ => [] end.
Definition b_entry : option dentry := match nth 4 rt_seen (GDigests None None) with GSee (OFile _ e) => Some e | _ => None end.
Lemma b_seen : match b_entry with
  | Some eb => rt_seen = firstn 4 rt_seen ++ GSee (OFile [[98]] eb) :: map GSee (map OByte [7; 8; 9]) ++ GSee (ODone [[98]]) :: GDigests (Some (Ok b_payload)) (Some (Ok b_hardlink)) :: skipn 10 rt_seen /\
               S_ISREG (m_mode (dt_meta eb)) = true
  | None => False end.
Proof. vm_compute. split; reflexivity. Qed.
Definition b_file : fnode := FReg (rt_stat 0x81A4 1000 6 8 [] acl1) 3 [7; 8; 9; 10].
Lemma b_done : nth_error rt_done 1 = Some (EDone b_file (Some (Ok b_payload)) (Some (Ok b_hardlink))).
Proof. vm_compute. reflexivity. Qed.
Lemma b_link : takeN 17 b_hardlink = 1 :: le64 64 ++ le64 F_ENTRY /\ len b_hardlink = 184.
Proof. vm_compute. split; reflexivity. Qed.
Lemma rt_decoded : gdecode H0 0x4000 rt_bytes = Some (rt_seen, GFinished [] (Some (Ok (1 :: rt_bytes)))).
Proof. vm_compute. reflexivity. Qed.
Lemma rt_encoded : gencode H0 rt_env rt_tree = Some (rt_bytes, rt_done, GEFinished (Some (Ok (1 :: rt_bytes)))).
Proof. vm_compute. reflexivity. Qed.
Lemma rt_some : rt_bytes <> [].
Proof. intros X. apply (f_equal (fun l => match l with [] => true | _ => false end)) in X. vm_compute in X. discriminate. Qed.
Example digests_case :
  exists e d eb x y, encoder_new rt_tree = Ok e /\ decoder_new 0x4000 = Ok d /\
    gerun H0 rt_env (e, digs_new true true true) rt_bytes rt_done (GEFinished (Some (Ok (1 :: rt_bytes)))) /\
    grun H0 envx (d, digs_new true true true) rt_bytes rt_seen (GFinished [] (Some (Ok (1 :: rt_bytes)))) /\
    rt_seen = x ++ GSee (OFile [[98]] eb) :: map GSee (map OByte [7; 8; 9]) ++ GSee (ODone [[98]]) :: GDigests (Some (Ok b_payload)) (Some (Ok b_hardlink)) :: y /\
    In (EDone b_file (Some (Ok b_payload)) (Some (Ok b_hardlink))) rt_done /\
    S_ISREG (m_mode (dt_meta eb)) = true /\ takeN 17 b_hardlink = 1 :: le64 64 ++ le64 F_ENTRY /\ len b_hardlink = 184.
Proof.
  destruct (gdecode_grun _ _ _ _ _ rt_some rt_decoded) as (d & D & R).
  destruct (gencode_gerun _ _ _ _ _ _ rt_encoded) as (e & E & G).
  assert (B := b_seen). destruct b_entry as [eb|]; [|contradiction]. destruct B as [B1 B2].
  exists e, d, eb, (firstn 4 rt_seen), (skipn 10 rt_seen). split; [exact E|]. split; [exact D|]. split; [exact G|]. split; [exact R|].
  split; [exact B1|]. split; [exact (nth_error_In _ _ b_done)|]. split; [exact B2|]. exact b_link.
Qed.

(** With a hash function without collisions, the decoder's file is the encoder's. *)
Lemma H0_injective : ~ collision H0.
Proof. intros (t1 & x1 & t2 & x2 & D & E). injection E as E ->. destruct t1, t2; try discriminate; congruence. Qed.
Lemma rt_cfg : configured rt_env.
Proof. apply env_of_configured. vm_compute. exact I. Qed.
Lemma rt_short : len rt_bytes < UINT64_MAX - 16.
Proof. vm_compute. reflexivity. Qed.
Example hardlink_digest_finds_case : exists eb t, b_entry = Some eb /\ stores rt_env [[98]] b_file t /\
  tree_obs [[98]] t = OFile [[98]] eb :: map OByte [7; 8; 9] ++ [ODone [[98]]].
Proof.
  destruct digests_case as (e & d & eb & x & y & E & D & G & R & S & In0 & _). 
  assert (B := b_seen). destruct b_entry as [eb'|]; [|contradiction]. destruct B as [B1 B2]. rewrite B1 in R.
  exists eb'. destruct (hardlink_digest_finds H0 rt_env rt_tree e true true true rt_bytes rt_done _ b_file _ _ envx 0x4000 d true true true rt_bytes _ _ _ _ _ _ _
    rt_cfg isort_ok rt_storable E G In0 rt_short (or_introl eq_refl) D R) as [(t & T)|C]; [|destruct (H0_injective C)].
  exists t. split; [reflexivity|exact T].
Qed.

(** * C55 does not hold of blobs *)
(** With --digest=sha256 a file has one archive digest, and the blob made of it has another: a decoder of a blob has no flags
    to go by, and never uses SHA-256. *)
Definition sha256_env : eenv := env_of 0 (fun _ => None).
Definition a_file : fnode := FReg (rt_stat 0x81A4 0 0 0 [] []) 2 [7; 8].
Theorem blob_digests_agree_refuted :
  exists H e d oe o ve vd, configured sha256_env /\ encoder_new a_file = Ok e /\ decoder_new 0x8000 = Ok d /\
    gerun H sha256_env (e, digs_new true true true) [7; 8] oe (GEFinished (Some (Ok ve))) /\
    grun H envx (d, digs_new true true true) [7; 8] o (GFinished [] (Some (Ok vd))) /\ ve = H CA_DIGEST_SHA256 [7; 8] /\ vd = H CA_DIGEST_SHA512_256 [7; 8] /\ ve <> vd.
Proof.
  destruct (gdecode_grun H0 0x8000 [7; 8] (match gdecode H0 0x8000 [7; 8] with Some (o, _) => o | None => [] end) (GFinished [] (Some (Ok [2; 7; 8])))) as (d & D & R);
    [discriminate|vm_compute; reflexivity|].
  assert (G : gencode H0 sha256_env a_file = Some ([7; 8], match gencode H0 sha256_env a_file with Some (_, o, _) => o | None => [] end, GEFinished (Some (Ok [1; 7; 8])))) by (vm_compute; reflexivity).
  apply gencode_gerun in G. destruct G as (e & E & G).
  exists H0, e, d. eexists. eexists. exists [1; 7; 8], [2; 7; 8]. split; [apply env_of_configured; exact I|]. split; [exact E|]. split; [exact D|].
  split; [exact G|]. split; [exact R|]. split; [reflexivity|]. split; [reflexivity|discriminate].
Qed.
Print Assumptions blob_digests_agree_refuted.

(** And a digest can be asked for just once: what the same call says afterwards isn't specified. *)
Theorem digest_twice_refuted :
  forall H ev s g, (forall v g', gd_archive H g = Ok (v, g') -> gd_archive H g' = UB) /\ (forall v g', gd_payload H g = Ok (v, g') -> gd_payload H g' = UB) /\
    (forall v g', gd_hardlink H g = Ok (v, g') -> gd_hardlink H g' = UB) /\ (forall v s', ge_archive H ev s = Ok (v, s') -> ge_archive H ev s' = UB) /\
    (forall v s', ge_payload H ev s = Ok (v, s') -> ge_payload H ev s' = UB) /\ (forall v s', ge_hardlink H ev s = Ok (v, s') -> ge_hardlink H ev s' = UB).
Proof.
  intros H ev [e ge] [d gd].
  assert (X : forall o t v c, digest_read H (digest_allocated o t) = Ok (v, c) -> digest_read H (digest_allocated (Some c) t) = UB).
  { intros o t v c E. unfold digest_read in E. destruct (dg_data _); [|discriminate]. injection E as _ <-. reflexivity. }
  repeat split; intros v [d' g'] E; unfold gd_archive, gd_payload, gd_hardlink, ge_archive, ge_payload, ge_hardlink in *;
  repeat match type of E with
         | (if ?c then _ else _) = _ => destruct c eqn:?; try discriminate
         | (match ?c with _ => _ end) = _ => destruct c eqn:?; try discriminate
         end;
  match type of E with bind ?c _ = _ => destruct c as [[? c1]| | |] eqn:Y; try discriminate end; cbn [bind] in E; injection E as <- <- <-;
  cbn [set_a set_p set_h g_want_a g_want_p g_want_h g_bad_p g_bad_h g_a g_p g_h];
  repeat match goal with X : ?c = _ |- context [if ?c then _ else _] => rewrite X end;
  repeat match goal with X : ?c = _ |- context [match ?c with _ => _ end] => rewrite X end;
  repeat match goal with X : ?c = _ |- context [if ?c then _ else _] => rewrite X end;
  rewrite (X _ _ _ _ Y); reflexivity.
Qed.
Print Assumptions digest_twice_refuted.
