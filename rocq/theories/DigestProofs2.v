(** What the decoder's digests are. *)
From Verif Require Import Base FeatureFlags ArchiveBase Decoder DecoderSpec DecoderProofs DecoderProofs2 DecoderProofs3 DecoderProofs4
  Encoder EncoderSpec Digest DigestSpec DigestProofs1.
Local Open Scope N_scope.
Local Arguments fld : simpl never.
Local Arguments body : simpl never.

Definition typed (o : option digest) (t : digest_type) : Prop := o = None \/ exists x, o = Some (mkDigest t x).
Definition holds (o : option digest) (t : digest_type) (b : list N) : Prop := o = None /\ b = [] \/ o = Some (mkDigest t (Some b)).

Lemma holds_typed o t b : holds o t b -> typed o t.
Proof. intros [[-> _] | ->]; [left; reflexivity|right; eauto]. Qed.
Lemma holds_write o t b p : holds o t b -> holds (digest_write o t p) t (b ++ p).
Proof. intros [[-> ->] | ->]; right; reflexivity. Qed.
Lemma holds_reset o t : typed o t -> holds (digest_reset o) t [].
Proof. intros [-> | [x ->]]; [left; auto|right; reflexivity]. Qed.
Lemma typed_write o t p : typed o t -> typed (digest_write o t p) t.
Proof. intros [-> | [x ->]]; right; [eexists; reflexivity|destruct x; eexists; reflexivity]. Qed.
Lemma typed_reset o t : typed o t -> typed (digest_reset o) t.
Proof. intros H. eapply holds_typed, holds_reset, H. Qed.
Lemma holds_read H o t b : holds o t b -> digest_read H (digest_allocated o t) = Ok (H t b, mkDigest t None).
Proof. intros [[-> ->] | ->]; reflexivity. Qed.

Section Run.
Variable H : digest_type -> list N -> list N.
Variable env : denv.
Variable i0 : list N.                      (* all of the input *)
Variables wa wp wh nk : bool.              (* what is wanted; a blob *)

Definition atype : digest_type := if nk then CA_DIGEST_SHA512_256 else feature_flags_to_digest_type (fld 16 i0).

Definition pay_ok (cur : option (dentry * list N)) (vp : option (res (list N))) : Prop := forall v, vp = Some v ->
  v = if negb wp then Err ENOMEDIUM
      else match cur with
           | Some (e, data) => if (S_ISREG (m_mode (dt_meta e)) || S_ISBLK (m_mode (dt_meta e)))%bool then Ok (H atype data) else Err ENOTTY
           | None => Err ENOTTY
           end.
Definition link_ok (cur : option (dentry * list N)) (vh : option (res (list N))) : Prop := forall v, vh = Some v ->
  if negb wh then v = Err ENOMEDIUM
  else match cur with
       | Some (e, data) =>
           if S_ISDIR (m_mode (dt_meta e)) then v = Err EISDIR
           else exists pre ent post, i0 = pre ++ (ent ++ data) ++ post /\ v = Ok (H atype (ent ++ data)) /\ describes env (fld 16 i0) ent e data
       | None => v = Err EISDIR
       end.
Fixpoint reports (cur : option (dentry * list N)) (o : list gobs) : Prop :=
  match o with
  | [] => True
  | GSee (OFile _ e) :: o => reports (Some (e, [])) o
  | GSee (OByte b) :: o => reports (match cur with Some (e, data) => Some (e, data ++ [b]) | None => None end) o
  | GSee (ODone _) :: o => reports cur o
  | GDigests vp vh :: o => pay_ok cur vp /\ link_ok cur vh /\ reports None o
  end.

Definition filest (d : dec) (g : digs) (A : list N) (e : dentry) (data : list N) : Prop :=
  exists n up ent pre, d_nodes d = n :: up /\ dn_entry n = Some e /\ A = pre ++ ent ++ data /\
    (S_ISDIR (m_mode (dt_meta e)) = true \/ parses_to env (d_ff d) ent e) /\
    (wp = true -> holds (g_p g) (d_type d) data) /\ (wh = true -> holds (g_h g) (d_type d) (ent ++ data)).

Record GI (d : dec) (g : digs) (i : list N) (cur : option (dentry * list N)) : Prop := mkGI {
  gi_inv : Inv d;
  gi_run : d_state d <> D_EOF;
  gi_naked : is_naked d = nk;
  gi_wants : g_want_a g = wa /\ g_want_p g = wp /\ g_want_h g = wh /\ g_bad_p g = false /\ g_bad_h g = false;
  gi_ff : nk = true /\ d_ff d = UINT64_MAX /\ (d_state d = D_INIT \/ d_state d = D_IN_PAYLOAD) /\ cur = None \/
          nk = false /\ (d_ff d = UINT64_MAX /\ d_state d = D_INIT /\ g_a g = None /\ g_p g = None /\ g_h g = None \/
                         d_ff d <> UINT64_MAX /\ d_ff d = fld 16 i0);
  gi_p : typed (g_p g) (d_type d);
  gi_h : typed (g_h g) (d_type d);
  gi_data : exists B, i0 = B ++ d_buf d ++ i /\
    (d_state d = D_INIT -> B = [] /\ d_step d = 0) /\
    (wa = true -> holds (g_a g) (d_type d) (B ++ takeN (d_step d) (d_buf d))) /\
    match d_state d with
    | D_ENTRY => exists e, cur = Some (e, []) /\ filest d g (B ++ takeN (d_step d) (d_buf d)) e []
    | D_IN_PAYLOAD => nk = false ->
        exists e data, cur = Some (e, data) /\ S_ISDIR (m_mode (dt_meta e)) = false /\ filest d g (B ++ takeN (d_step d) (d_buf d)) e data
    | D_IN_DIRECTORY | D_GOODBYE => forall e data, cur = Some (e, data) -> S_ISDIR (m_mode (dt_meta e)) = true
    | D_INIT | D_FINALIZE => cur = None
    | D_ENTERED | D_EOF => True
    end
}.

(** The file the user is at, after what it has seen. *)
Definition see1 (cur : option (dentry * list N)) (x : obs) : option (dentry * list N) :=
  match x with
  | OFile _ e => Some (e, [])
  | OByte b => match cur with Some (e, data) => Some (e, data ++ [b]) | None => None end
  | ODone _ => cur
  end.
Fixpoint see (cur : option (dentry * list N)) (l : list obs) : option (dentry * list N) :=
  match l with [] => cur | x :: l => see (see1 cur x) l end.

Lemma reports_see l : forall cur o, reports cur (map GSee l ++ o) <-> reports (see cur l) o.
Proof. induction l as [|x l IH]; intros cur o; [reflexivity|]. destruct x; cbn [map app reports see see1]; apply IH. Qed.
Lemma see_bytes b : forall e data, see (Some (e, data)) (map OByte b) = Some (e, data ++ b).
Proof. induction b as [|x b IH]; intros e data; cbn [map see see1]; [rewrite app_nil_r; reflexivity|]. rewrite IH, <- app_assoc. reflexivity. Qed.
Lemma see_bytes_none b : see None (map OByte b) = None.
Proof. induction b as [|x b IH]; [reflexivity|exact IH]. Qed.

Lemma GI_put d g p i cur d' : GI d g (p ++ i) cur -> decoder_put_data d p = Ok d' -> GI d' g i cur.
Proof.
  intros G P. unfold decoder_put_data in P. destruct (N.eqb_spec (len p) 0) as [E | E].
  { apply len_zero_nil in E. subst p. injection P as <-. exact G. }
  destruct (d_eof d); [discriminate|]. injection P as <-. destruct G as [G1 G2 G3 G4 G5 G6 G7 (B & D1 & D2 & D3 & D4)].
  assert (L := I_step _ G1).
  constructor; cbn [d_state d_ff d_buf d_step d_nodes]; auto.
  - destruct G1 as [H1 H2 H3 H4 H5 H6]. constructor; cbn; auto. rewrite len_app. lia.
  - exists B. split; [rewrite D1, <- app_assoc; reflexivity|]. split; [exact D2|]. rewrite takeN_app_le by exact L. split; [exact D3|exact D4].
Qed.
Lemma GI_eof d g i cur : GI d g i cur -> GI (decoder_put_eof d) g i cur.
Proof.
  intros [G1 G2 G3 G4 G5 G6 G7 G8]. constructor; auto. destruct G1 as [H1 H2 H3 H4 H5 H6]. constructor; auto.
Qed.

Lemma note_wants g x d : (let g' := note g x d in g_want_a g' = g_want_a g /\ g_want_p g' = g_want_p g /\ g_want_h g' = g_want_h g) /\
  (g_bad_p g = false -> g_bad_p (note g x d) = false) /\ (g_bad_h g = false -> g_bad_h (note g x d) = false).
Proof.
  destruct g as [a p h bp bh ga gp gh]. cbn. destruct x; cbn; auto;
    destruct (d_state d), a, p, h, bp, bh; cbn; auto.
Qed.

Lemma note_next g d : let b := takeN (d_step d) (d_buf d) in
  g_a (note g R_NEXT_FILE d) = digest_write (g_a g) (d_type d) b /\
  g_p (note g R_NEXT_FILE d) = (if g_want_p g then digest_reset (g_p g) else g_p g) /\
  g_h (note g R_NEXT_FILE d) = (if g_want_h g then digest_write (digest_reset (g_h g)) (d_type d) b else g_h g).
Proof. cbn [note]. destruct g as [a p h bp bh ga gp gh], p, h; repeat split. Qed.
Lemma note_payload g d : let b := takeN (d_step d) (d_buf d) in g_bad_p g = false -> g_bad_h g = false ->
  g_a (note g R_PAYLOAD d) = (if g_want_a g then digest_write (g_a g) (d_type d) b else g_a g) /\
  g_p (note g R_PAYLOAD d) = (if g_want_p g then digest_write (g_p g) (d_type d) b else g_p g) /\
  g_h (note g R_PAYLOAD d) = (if g_want_h g then digest_write (g_h g) (d_type d) b else g_h g).
Proof. intros b Q1 Q2. cbn [note]. destruct g as [a p h bp bh ga gp gh]. cbn in Q1, Q2. subst bp bh. destruct a, p, h; repeat split. Qed.

Lemma GI_step d g i cur x d' : GI d g i cur -> decoder_step env d = Ok (x, d') -> x <> R_FINISHED -> x <> R_DONE_FILE ->
  GI d' (note g x d') i (see cur (observe x d')).
Proof.
  intros [G1 G2 G3 G4 G5 G6 G7 (B & D1 & D2 & D3 & D4)] ST X1 X2.
  pose proof (step_shape _ _ _ _ G1 G2 ST) as [SB S]. pose proof (Inv_of_step _ _ _ _ G1 ST) as I'.
  assert (L := I_step _ G1). assert (L' := I_step _ I').
  set (A := B ++ takeN (d_step d) (d_buf d)) in *.
  assert (D1' : i0 = A ++ d_buf d' ++ i).
  { unfold A. rewrite SB, D1, <- app_assoc. f_equal. rewrite app_assoc, takeN_dropN. reflexivity. }
  assert (W' : g_want_a (note g x d') = wa /\ g_want_p (note g x d') = wp /\ g_want_h (note g x d') = wh /\
     g_bad_p (note g x d') = false /\ g_bad_h (note g x d') = false).
  { destruct G4 as (W1 & W2 & W3 & W4 & W5). destruct (note_wants g x d') as ((Q1 & Q2 & Q3) & Q4 & Q5).
    repeat split; auto; congruence. }
  destruct G4 as (W1 & W2 & W3 & W4 & W5).
  destruct x; try congruence; cbn [observe] in *.
  - (* R_REQUEST *) cbn [note] in *.
    destruct S as [S0 [(E1 & E2 & E3 & ar & n' & E4 & E5 & E6 & E7) | [(E1 & E3 & ar & n' & E4 & E5 & E6 & E7) | (E1 & E2 & E3)]]].
    + assert (nk = false) by congruence. destruct D2 as [-> D2]; [exact E1|].
      destruct G5 as [(Q & _) | (_ & G5)]; [congruence|].
      assert (A = []) as EA. { unfold A. rewrite D2. reflexivity. } rewrite EA in *. cbn [app] in D1'.
      apply parse_ff in E4; [|discriminate].
      assert (T : d_ff d' = UINT64_MAX /\ d_ff d = UINT64_MAX /\ g_a g = None /\ g_p g = None /\ g_h g = None \/
                  d_ff d' <> UINT64_MAX /\ d_ff d' = fld 16 i0 /\ (d_ff d = UINT64_MAX /\ g_a g = None /\ g_p g = None /\ g_h g = None \/ d_ff d = d_ff d')).
      { destruct E4 as [[_ E4] | (F1 & F2 & F3 & F4)]; [rewrite E4; destruct G5 as [(Q1 & _ & Q2) | [Q1 Q2]]; auto|].
        right. split; [exact F2|]. split; [rewrite D1', fld_ext by lia; exact F1|].
        destruct F4 as [F4 | F4]; [|auto]. destruct G5 as [(Q1 & _ & Q2) | [Q1 Q2]]; [auto|congruence]. }
      apply mkGI; [exact I'|congruence| |exact W'| | | |].
      * unfold is_naked. rewrite E5. destruct (tl (d_nodes d)); [|symmetry; assumption]. rewrite E6, E7. symmetry; assumption.
      * right. split; [assumption|]. destruct T as [(T1 & T2 & T3) | (T1 & T2 & T3)]; auto.
      * unfold typed. unfold d_type in *. destruct T as [(T1 & T2 & T3 & T4 & T5) | (T1 & T2 & [(T3 & T4 & T5 & T6) | T3])];
          [left; assumption|left; assumption|rewrite <- T3; exact G6].
      * unfold typed. unfold d_type in *. destruct T as [(T1 & T2 & T3 & T4 & T5) | (T1 & T2 & [(T3 & T4 & T5 & T6) | T3])];
          [left; assumption|left; assumption|rewrite <- T3; exact G7].
      * exists []. split; [exact D1'|]. split; [auto|]. rewrite S0. split; [|rewrite E3, E1 in *; exact D4].
        intros Q. specialize (D3 Q). unfold d_type in *. cbn [app takeN].
        destruct T as [(T1 & T2 & T3) | (T1 & T2 & [(T3 & T4 & T5) | T3])]; [left; split; [apply T3|reflexivity]|left; split; [apply T4|reflexivity]|rewrite <- T3; exact D3].
    + assert (K : nk = false). { destruct G5 as [(_ & _ & [Q | Q] & _) | [Q _]]; congruence. }
      destruct G5 as [(Q & _) | (_ & [(_ & Q & _) | [Q1 Q2]])]; [congruence|congruence|].
      apply parse_ff in E4; [|discriminate].
      assert (T : d_ff d' = d_ff d). { destruct E4 as [[_ E4] | (F1 & F2 & F3 & [F4 | F4])]; congruence. }
      apply mkGI; [exact I'|congruence| |exact W'| | | |].
      * unfold is_naked. rewrite E5. destruct (tl (d_nodes d)); [|symmetry; assumption]. rewrite E6, E7. symmetry; assumption.
      * right. split; [assumption|]. right. rewrite T. auto.
      * unfold d_type. rewrite T. exact G6.
      * unfold d_type. rewrite T. exact G7.
      * exists A. split; [exact D1'|]. split; [congruence|]. rewrite S0, takeN_0, app_nil_r. unfold d_type. rewrite T. split; [exact D3|]. rewrite E3. exact I.
    + assert (T : d_type d' = d_type d) by (unfold d_type; congruence).
      assert (Nk : is_naked d' = is_naked d) by (unfold is_naked; rewrite E2; reflexivity).
      assert (FT : forall e data, filest d g A e data -> filest d' g A e data).
      { intros e data F. unfold filest in *. rewrite E2, E1, T. exact F. }
      apply mkGI; [exact I'| |congruence|exact W'| | | |].
      * intros Q. destruct E3 as [E3 | [E3 | [E3 | [E3 | E3]]]]; destruct E3; intuition congruence.
      * rewrite E1. destruct G5 as [(Q1 & Q2 & Q3 & Q4) | (Q1 & [(Q2 & Q3 & Q4) | Q2])].
        -- left. repeat split; auto. destruct E3 as [E3 | [E3 | [E3 | [E3 | E3]]]]; intuition congruence.
        -- right. split; [exact Q1|]. exfalso. destruct E3 as [E3 | [E3 | [E3 | [E3 | E3]]]]; intuition congruence.
        -- right. split; [exact Q1|]. right. exact Q2.
      * rewrite T. exact G6.
      * rewrite T. exact G7.
      * exists A. split; [exact D1'|]. split; [intros Q; exfalso; destruct E3 as [E3 | [E3 | [E3 | [E3 | E3]]]]; intuition congruence|].
        rewrite S0, takeN_0, app_nil_r, T. split; [exact D3|]. cbn [see].
        destruct E3 as [(E3 & E4 & E5) | [(E3 & E5 & n & up & E6 & E7) | [(E3 & E5) | [(E3 & E5 & n & up & E6 & E7) | (E3 & E5)]]]]; rewrite E5; rewrite E3 in D4.
        -- congruence.
        -- intros _. destruct D4 as (e & C & F). exists e, []. split; [exact C|]. split; [|apply FT; exact F].
           destruct F as (n2 & up2 & ent & pre & F1 & F2 & _). assert (n2 = n) by congruence. subst n2. unfold node_mode in E7. rewrite F2 in E7. exact E7.
        -- intros Q. destruct (D4 Q) as (e & data & C & F1 & F). exists e, data. split; [exact C|]. split; [exact F1|]. apply FT, F.
        -- destruct D4 as (e & C & F). intros e2 data2 C2. assert (e2 = e) by congruence. subst e2.
           destruct F as (n2 & up2 & ent & pre & F1 & F2 & _). assert (n2 = n) by congruence. subst n2. unfold node_mode in E7. rewrite F2 in E7. exact E7.
        -- exact D4.
  - (* R_STEP *)
    destruct S as [E1 S]. assert (T : d_type d' = d_type d) by (unfold d_type; congruence).
    assert (HA : forall b, wa = true -> holds (digest_write (g_a g) (d_type d') b) (d_type d') (A ++ b)).
    { intros b Q. rewrite T. apply holds_write, D3, Q. }
    assert (K : nk = false /\ (d_ff d <> UINT64_MAX /\ d_ff d = fld 16 i0)).
    { destruct G5 as [(Q1 & Q2 & Q3 & Q4) | (Q1 & [(Q2 & Q3 & Q4) | Q2])].
      - exfalso. destruct (d_state d') eqn:Es; try contradiction.
        + destruct S as [[[S _] | S] (n & up & S2 & S3 & S4)]; destruct Q3; congruence.
        + destruct S as [S _]. destruct Q3; congruence.
        + destruct S as [[[S _] | S] (n & up & S2 & S3 & S4)]; destruct Q3; congruence.
      - exfalso. destruct (d_state d') eqn:Es; try contradiction.
        + destruct S as [[[S _] | S] (n & up & S2 & S3 & S4)]; congruence.
        + destruct S as [S _]. congruence.
        + destruct S as [[[S _] | S] (n & up & S2 & S3 & S4)]; congruence.
      - split; auto. }
    destruct K as [K K2].
    assert (DIR : (d_state d' = D_ENTERED \/ d_state d' = D_GOODBYE) -> forall e data, cur = Some (e, data) -> S_ISDIR (m_mode (dt_meta e)) = true).
    { intros Q e data C.
      assert (S' : (d_state d = D_ENTRY /\ d_nodes d <> [] \/ d_state d = D_IN_DIRECTORY) /\
          exists n up, d_nodes d = n :: up /\ S_ISDIR (node_mode n) = true).
      { destruct Q as [Q | Q]; rewrite Q in S; destruct S as [S (n & up & S2 & S3 & S4)]; eauto 8. }
      destruct S' as [[[S' _] | S'] (n & up & S2 & S3)]; rewrite S' in D4; [|eauto].
      destruct D4 as (e2 & C2 & (n2 & up2 & ent & pre & F1 & F2 & _)). assert (n2 = n) by congruence. assert (e2 = e) by congruence. subst n2 e2.
      unfold node_mode in S3. rewrite F2 in S3. exact S3. }
    assert (NK' : is_naked d' = nk).
    { rewrite K. destruct (d_state d') eqn:Es; try contradiction.
      - destruct S as [_ (n & up & S2 & S3 & [S4 | [m S4]])]; [|unfold is_naked; rewrite S4; reflexivity].
        rewrite <- K, <- G3. unfold is_naked. rewrite S4, S2. reflexivity.
      - assert (Hh := I_head _ I'). unfold head_ok in Hh. rewrite Es in Hh. unfold is_naked. destruct (d_nodes d') as [|n [|]]; try reflexivity.
        destruct Hh as (e & Q & _). rewrite Q. reflexivity.
      - destruct S as [_ (n & up & S2 & S3 & [S4 | [m S4]])]; [|unfold is_naked; rewrite S4; reflexivity].
        rewrite <- K, <- G3. unfold is_naked. rewrite S4, S2. reflexivity. }
    assert (GP : g_p (note g R_STEP d') = g_p g /\ g_h (note g R_STEP d') = g_h g).
    { cbn [note]. destruct (d_state d'); auto. destruct (g_want_a g); auto. }
    destruct GP as [GP GH].
    apply mkGI; [exact I'| |exact NK'|exact W'| | | |].
    + destruct (d_state d'); congruence || contradiction.
    + right. split; [exact K|]. right. rewrite E1. exact K2.
    + rewrite GP, T. exact G6.
    + rewrite GH, T. exact G7.
    + exists A. split; [exact D1'|].
      destruct (d_state d') eqn:Es; try contradiction.
      * split; [congruence|]. split; [|exact I]. intros Q. cbn [note]. rewrite Es, W1, Q. apply HA, Q.
      * destruct S as [S S0]. split; [congruence|]. rewrite S in D4. rewrite S0, takeN_0, app_nil_r. split; [cbn [note]; rewrite Es, T; exact D3|].
        cbn [see]. rewrite D4. discriminate.
      * split; [congruence|]. split; [cbn [note]; rewrite Es; exact (HA _)|]. cbn [see]. intros e data C. apply (DIR (or_intror eq_refl) e data C).
  - (* R_NEXT_FILE *)
    destruct S as (E1 & E2 & n' & up & e & ar & E3 & E4 & E5 & E6 & E7).
    assert (K : nk = false).
    { destruct E1 as [[_ E1] | E1]; [congruence|]. destruct G5 as [(_ & _ & [Q | Q] & _) | (Q & _)]; congruence. }
    assert (P := parse_ff _ _ _ _ _ _ E7 ltac:(discriminate)). destruct P as [[P _] | (P1 & P2 & P3 & P4)]; [discriminate|].
    apply parse_entry_ok in E7 as OK. destruct OK as ((OK1 & OK2 & OK3) & _).
    assert (T : d_ff d' = fld 16 i0 /\ (d_type d' = d_type d /\ d_ff d' = d_ff d \/ g_a g = None /\ g_p g = None /\ g_h g = None /\ A = [] /\ ar = true)).
    { destruct G5 as [(Q & _) | (_ & [(Q1 & Q2 & Q3) | [Q1 Q2]])]; [congruence| |].
      - destruct (D2 Q2) as [B0 S0]. assert (A = []) as EA by (unfold A; rewrite B0, S0; reflexivity).
        rewrite EA in D1'. cbn [app] in D1'. split; [rewrite D1', fld_ext by lia; exact P1|]. right. repeat split; try apply Q3; auto.
      - destruct P4 as [P4 | P4]; [congruence|]. split; [congruence|]. left. unfold d_type. rewrite P4. auto. }
    destruct T as [T1 T2].
    assert (TA : wa = true -> holds (g_a g) (d_type d') A).
    { intros Q. destruct T2 as [[T2 _] | (T2 & _ & _ & T3 & _)]; [rewrite T2; auto|left; auto]. }
    assert (TP : typed (g_p g) (d_type d')). { destruct T2 as [[T2 _] | (_ & T2 & _)]; [rewrite T2; auto|left; auto]. }
    assert (TH : typed (g_h g) (d_type d')). { destruct T2 as [[T2 _] | (_ & _ & T2 & _)]; [rewrite T2; auto|left; auto]. }
    assert (ST2 : S_ISDIR (m_mode (dt_meta e)) = true \/ parses_to env (d_ff d') (takeN (d_step d') (d_buf d')) e).
    { destruct T2 as [[_ T2] | (_ & _ & _ & _ & T2)]; [right|left; auto].
      exists ar, (dropN (d_step d') (d_buf d')), (d_ff d'). rewrite takeN_dropN, len_takeN, N.min_l by exact E5. rewrite T2 at 1. exact E7. }
    rewrite E3, E4. cbn [see see1]. destruct (note_next g d') as (NA & NP & NH).
    apply mkGI; [exact I'|congruence| |exact W'| | | |].
    + unfold is_naked. rewrite E3, E4, K. destruct up; reflexivity.
    + right. split; [exact K|]. right. split; [exact P2|exact T1].
    + rewrite NP. destruct (g_want_p g); auto using typed_reset.
    + rewrite NH. destruct (g_want_h g); auto using typed_reset, typed_write.
    + exists A. split; [exact D1'|]. split; [congruence|]. split.
      * intros Q. rewrite NA. apply holds_write, TA, Q.
      * rewrite E2. exists e. split; [reflexivity|]. exists n', up, (takeN (d_step d') (d_buf d')), A. rewrite app_nil_r.
        repeat split; auto.
        -- intros Q. rewrite NP, W2, Q. apply holds_reset, TP.
        -- intros Q. rewrite NH, W3, Q. apply (holds_write _ _ []), holds_reset, TH.
  - (* R_PAYLOAD *)
    destruct S as (E1 & E2 & E3 & E4 & (n & up & E5 & E6 & E7) & E8). rewrite E7.
    assert (T : d_type d' = d_type d) by (unfold d_type; congruence).
    assert (NK' : is_naked d' = nk) by (rewrite <- G3; unfold is_naked; rewrite E2; reflexivity).
    destruct (note_payload g d' W4 W5) as (NA & NP & NH).
    set (b := takeN (d_step d') (d_buf d')) in *.
    apply mkGI; [exact I'|congruence|exact NK'|exact W'| | | |].
    + rewrite E1. destruct G5 as [(Q1 & Q2 & Q3 & Q4) | (Q1 & [(Q2 & Q3 & Q4) | Q2])].
      * left. repeat split; auto. rewrite Q4. apply see_bytes_none.
      * exfalso. destruct E8 as [[E8 E9] | [E8 | E8]]; congruence.
      * right. auto.
    + rewrite NP, T. destruct (g_want_p g); auto using typed_write.
    + rewrite NH, T. destruct (g_want_h g); auto using typed_write.
    + exists A. split; [exact D1'|]. split; [congruence|]. split.
      * intros Q. rewrite NA, T, W1, Q. apply holds_write, D3, Q.
      * rewrite E3. intros Q.
        assert (F : exists e data, cur = Some (e, data) /\ S_ISDIR (m_mode (dt_meta e)) = false /\ filest d g A e data).
        { destruct E8 as [[E8 E9] | [E8 | E8]]; [congruence| |]; rewrite E8 in D4; [|auto].
          destruct D4 as (e & C & F). exists e, []. split; [exact C|]. split; [|exact F].
          destruct F as (n2 & up2 & ent & pre & F1 & F2 & _). assert (n2 = n) by congruence. subst n2. unfold node_mode in E6. rewrite F2 in E6. exact E6. }
        destruct F as (e & data & C & F0 & (n2 & up2 & ent & pre & F1 & F2 & F3 & F4 & F5 & F6)).
        exists e, (data ++ b). rewrite C, see_bytes. split; [reflexivity|]. split; [exact F0|].
        exists n2, up2, ent, pre. rewrite E2, E1. repeat split; auto.
        -- rewrite F3, <- !app_assoc. reflexivity.
        -- intros Q2. rewrite NP, T, W2, Q2. apply holds_write, F5, Q2.
        -- intros Q2. rewrite NH, T, W3, Q2, app_assoc. apply holds_write, F6, Q2.
Qed.

(** ** A complete file *)
Definition same_kind (a b : N) : Prop := S_ISDIR a = S_ISDIR b /\ (S_ISREG a || S_ISBLK a = S_ISREG b || S_ISBLK b)%bool.
Lemma dir_kind a b : S_ISDIR a = true -> S_ISDIR b = true -> same_kind a b.
Proof.
  intros A B. unfold same_kind, S_ISDIR, S_ISREG, S_ISBLK, is_type in *. apply N.eqb_eq in A, B. rewrite A, B. auto.
Qed.
Lemma asks_payload d g v g2 d2 cur : asks (gd_payload H) (d, g) v (d2, g2) ->
  d_state d = D_FINALIZE -> g_want_p g = wp -> g_bad_p g = false -> typed (g_p g) (d_type d) -> d_type d = atype ->
  (exists n up, d_nodes d = n :: up /\ node_mode n <> MODE_NONE /\
     match cur with
     | Some (e, data) => same_kind (node_mode n) (m_mode (dt_meta e)) /\ (wp = true -> S_ISDIR (node_mode n) = false -> holds (g_p g) atype data)
     | None => S_ISDIR (node_mode n) = true
     end) ->
  d2 = d /\ pay_ok cur v /\ typed (g_p g2) (d_type d) /\ g_p g2 = g_p g2 /\
  g_want_a g2 = g_want_a g /\ g_want_p g2 = g_want_p g /\ g_want_h g2 = g_want_h g /\ g_bad_p g2 = g_bad_p g /\ g_bad_h g2 = g_bad_h g /\
  g_a g2 = g_a g /\ g_h g2 = g_h g.
Proof.
  intros A Es W Bp T Ty (n & up & N1 & N2 & N3).
  assert (G : gd_payload H (d, g) =
    if negb wp then Err ENOMEDIUM
    else if (S_ISREG (node_mode n) || S_ISBLK (node_mode n))%bool then
      let! (v, c) := digest_read H (digest_allocated (g_p g) (d_type d)) in Ok (v, (d, set_p g (g_bad_p g) (Some c)))
    else Err ENOTTY).
  { unfold gd_payload. rewrite W, Es, Bp, N1. destruct wp; [cbn [negb]|reflexivity].
    destruct (N.eqb_spec (node_mode n) MODE_NONE); [congruence|]. rewrite <- Bool.negb_orb. destruct (_ || _)%bool; reflexivity. }
  assert (V : forall e data, cur = Some (e, data) -> wp = true -> (S_ISREG (node_mode n) || S_ISBLK (node_mode n))%bool = true ->
     gd_payload H (d, g) = Ok (H atype data, (d, set_p g (g_bad_p g) (Some (mkDigest atype None))))).
  { intros e data C Q Rg. rewrite C in N3. destruct N3 as [N3 N4]. rewrite G, Q, Rg. cbn [negb].
    assert (ND : S_ISDIR (node_mode n) = false).
    { destruct (S_ISDIR (node_mode n)) eqn:D; [|reflexivity]. exfalso. apply Bool.orb_true_iff in Rg.
      unfold S_ISDIR, S_ISREG, S_ISBLK, is_type in *. destruct Rg as [Rg | Rg]; apply N.eqb_eq in Rg, D; rewrite Rg in D; discriminate. }
    rewrite Ty, (holds_read _ _ _ _ (N4 Q ND)). reflexivity. }
  assert (KEEP : typed (g_p g) (d_type d) /\ g_p g = g_p g /\ g_want_a g = g_want_a g /\ g_want_p g = g_want_p g /\ g_want_h g = g_want_h g /\
    g_bad_p g = g_bad_p g /\ g_bad_h g = g_bad_h g /\ g_a g = g_a g /\ g_h g = g_h g) by auto 12.
  assert (ERR : forall e, gd_payload H (d, g) = Err e -> pay_ok cur (Some (Err e))).
  { intros e Q v0 V0. injection V0 as <-. destruct wp eqn:Ew; cbn [negb] in *; [|congruence].
    destruct cur as [[e0 data]|].
    - destruct N3 as [N3 N4]. rewrite <- (proj2 N3). destruct (S_ISREG (node_mode n) || S_ISBLK (node_mode n))%bool eqn:Rg; [|congruence].
      rewrite (V _ _ eq_refl eq_refl eq_refl) in Q. discriminate.
    - assert (S_ISREG (node_mode n) || S_ISBLK (node_mode n) = false)%bool as Rg.
      { unfold S_ISDIR, S_ISREG, S_ISBLK, is_type in *. apply N.eqb_eq in N3. rewrite N3. reflexivity. }
      rewrite Rg in G. congruence. }
  assert (NOK : forall x, gd_payload H (d, g) = x -> x <> Abort /\ x <> UB).
  { intros x Q. rewrite G in Q. destruct wp eqn:Ew; cbn [negb] in Q, G; [|subst x; split; discriminate].
    destruct (S_ISREG (node_mode n) || S_ISBLK (node_mode n))%bool eqn:Rg; [|subst x; split; discriminate].
    destruct cur as [[e0 data]|].
    - rewrite (V _ _ eq_refl eq_refl eq_refl) in G. rewrite <- Q, <- G. split; discriminate.
    - exfalso. unfold S_ISDIR, S_ISREG, S_ISBLK, is_type in *. apply N.eqb_eq in N3. rewrite N3 in Rg. discriminate. }
  inversion A as [? | ? v0 s' Q | ? e Q | ? Q | ? Q]; subst.
  - split; [reflexivity|]. split; [intros v0 V0; discriminate|exact KEEP].
  - destruct wp eqn:Ew; cbn [negb] in G; [|congruence].
    destruct (S_ISREG (node_mode n) || S_ISBLK (node_mode n))%bool eqn:Rg; [|congruence].
    destruct cur as [[e0 data]|].
    + assert (V' := V _ _ eq_refl eq_refl eq_refl). rewrite V' in Q. injection Q as <- <- <-.
      split; [reflexivity|]. split.
      { intros v1 V1. injection V1 as <-. destruct N3 as [N3 _]. rewrite <- (proj2 N3), Ew, Rg. reflexivity. }
      cbn. repeat split. right. exists None. rewrite Ty. reflexivity.
    + exfalso. unfold S_ISDIR, S_ISREG, S_ISBLK, is_type in *. apply N.eqb_eq in N3. rewrite N3 in Rg. discriminate.
  - split; [reflexivity|]. split; [apply ERR, Q|exact KEEP].
  - destruct (NOK _ Q). congruence.
  - destruct (NOK _ Q). congruence.
Qed.

Lemma asks_hardlink d g v g2 d2 cur : asks (gd_hardlink H) (d, g) v (d2, g2) ->
  d_state d = D_FINALIZE -> g_want_h g = wh -> g_bad_h g = false -> typed (g_h g) (d_type d) -> d_type d = atype ->
  (exists n up, d_nodes d = n :: up /\ node_mode n <> MODE_NONE /\
     match cur with
     | Some (e, data) => same_kind (node_mode n) (m_mode (dt_meta e)) /\
         (S_ISDIR (node_mode n) = false -> exists pre ent post, i0 = pre ++ (ent ++ data) ++ post /\ describes env (fld 16 i0) ent e data /\
            (wh = true -> holds (g_h g) atype (ent ++ data)))
     | None => S_ISDIR (node_mode n) = true
     end) ->
  d2 = d /\ link_ok cur v /\ typed (g_h g2) (d_type d) /\
  g_want_a g2 = g_want_a g /\ g_want_p g2 = g_want_p g /\ g_want_h g2 = g_want_h g /\ g_bad_p g2 = g_bad_p g /\ g_bad_h g2 = g_bad_h g /\
  g_a g2 = g_a g /\ g_p g2 = g_p g.
Proof.
  intros A Es W Bh T Ty (n & up & N1 & N2 & N3).
  assert (G : gd_hardlink H (d, g) =
    if negb wh then Err ENOMEDIUM
    else if S_ISDIR (node_mode n) then Err EISDIR
    else let! (v, c) := digest_read H (digest_allocated (g_h g) (d_type d)) in Ok (v, (d, set_h g (g_bad_h g) (Some c)))).
  { unfold gd_hardlink. rewrite W, Es, Bh, N1. destruct wh; [cbn [negb]|reflexivity].
    destruct (N.eqb_spec (node_mode n) MODE_NONE); [congruence|]. reflexivity. }
  destruct wh eqn:Ew; cbn [negb] in G.
  - destruct (S_ISDIR (node_mode n)) eqn:Dr.
    + inversion A as [? | ? v0 s' Q | ? e Q | ? Q | ? Q]; subst; try congruence; (split; [reflexivity|]);
        (split; [intros v0 V0; try discriminate|repeat split; exact T]).
      injection V0 as <-. rewrite Ew. cbn [negb]. rewrite G in Q. injection Q as <-.
      destruct cur as [[e0 data]|]; [|reflexivity]. destruct N3 as [N3 _]. rewrite <- (proj1 N3), Dr. reflexivity.
    + destruct cur as [[e0 data]|]; [|congruence]. destruct N3 as [N3 N4]. destruct (N4 eq_refl) as (pre & ent & post & P1 & P2 & P3).
      rewrite Ty, (holds_read _ _ _ _ (P3 eq_refl)) in G. cbn [bind] in G.
      inversion A as [? | ? v0 s' Q | ? e Q | ? Q | ? Q]; subst; try congruence; (split; [try reflexivity; congruence|]).
      * split; [intros v0 V0; discriminate|]. repeat split; exact T.
      * rewrite G in Q. injection Q as <- <- <-. split.
        -- intros v1 V1. injection V1 as <-. rewrite Ew. cbn [negb]. rewrite <- (proj1 N3), Dr. exists pre, ent, post. auto.
        -- cbn. repeat split. right. exists None. rewrite Ty. reflexivity.
  - inversion A as [? | ? v0 s' Q | ? e Q | ? Q | ? Q]; subst; try congruence; (split; [reflexivity|]);
      (split; [intros v0 V0; try discriminate|repeat split; exact T]).
    injection V0 as <-. rewrite Ew. cbn [negb]. congruence.
Qed.

Lemma GI_done d g i cur d' vp s2 vh d3 g3 : GI d g i cur -> decoder_step env d = Ok (R_DONE_FILE, d') ->
  asks (gd_payload H) (d', g) vp s2 -> asks (gd_hardlink H) s2 vh (d3, g3) ->
  pay_ok cur vp /\ link_ok cur vh /\ GI d3 g3 i None.
Proof.
  intros [G1 G2 G3 G4 G5 G6 G7 (B & D1 & D2 & D3 & D4)] ST AP AH.
  pose proof (step_shape _ _ _ _ G1 G2 ST) as [SB S]. pose proof (Inv_of_step _ _ _ _ G1 ST) as I'.
  set (A := B ++ takeN (d_step d) (d_buf d)) in *.
  assert (D1' : i0 = A ++ d_buf d' ++ i).
  { unfold A. rewrite SB, D1, <- app_assoc. f_equal. rewrite app_assoc, takeN_dropN. reflexivity. }
  destruct S as (E1 & E2 & E3 & E4 & E5). assert (T : d_type d' = d_type d) by (unfold d_type; congruence).
  destruct G4 as (W1 & W2 & W3 & W4 & W5).
  assert (K : nk = false /\ d_ff d <> UINT64_MAX /\ d_ff d = fld 16 i0).
  { destruct G5 as [(Q1 & Q2 & [Q3 | Q3] & Q4) | (Q1 & [(Q2 & Q3 & Q4) | Q2])]; [| | |auto]; exfalso;
      (destruct E5 as [E5 | [[E5 _] | [E5 E6]]]; congruence). }
  destruct K as (K & K1 & K2). assert (Ty : d_type d' = atype). { rewrite T. unfold d_type, atype. rewrite K, K2. reflexivity. }
  assert (Nd : exists n up, d_nodes d = n :: up /\ node_mode n <> MODE_NONE /\
     match cur with
     | Some (e, data) => same_kind (node_mode n) (m_mode (dt_meta e)) /\ (S_ISDIR (node_mode n) = false -> filest d g A e data)
     | None => S_ISDIR (node_mode n) = true
     end).
  { assert (Hh := I_head _ G1). unfold head_ok in Hh. destruct (d_nodes d) as [|n up] eqn:En; [contradiction|].
    exists n, up. split; [reflexivity|].
    destruct E5 as [E5 | [[E5 (n2 & up2 & E6 & E7)] | [E5 E6]]]; rewrite E5 in *.
    - destruct Hh as (e & H1 & H2 & H3). unfold node_mode. rewrite H1. split; [exact H3|].
      destruct cur as [[e2 data]|]; [|exact H2].
      split; [apply dir_kind; [exact H2|exact (D4 e2 data eq_refl)]|congruence].
    - destruct Hh as (e & H1 & H2 & _). destruct D4 as (e2 & C & F). rewrite C.
      assert (e2 = e). { destruct F as (n3 & up3 & ent & pre & F1 & F2 & _). congruence. } subst e2.
      unfold node_mode. rewrite H1. split; [exact H2|]. split; [split; reflexivity|]. intros _. exact F.
    - destruct Hh as [Hh | (e & s & H1 & _ & H2 & _)]; [congruence|]. destruct (D4 K) as (e2 & data & C & F0 & F). rewrite C.
      assert (e2 = e). { destruct F as (n3 & up3 & ent & pre & F1 & F2 & _). congruence. } subst e2.
      unfold node_mode. rewrite H1. split; [exact H2|]. split; [split; reflexivity|]. intros _. exact F. }
  destruct Nd as (n & up & N1 & N2 & N3).
  assert (N5 : forall e data, cur = Some (e, data) -> S_ISDIR (node_mode n) = false -> data = [] \/ dt_size e <> None).
  { intros e data C Dr. rewrite C in N3. destruct N3 as [N3 N4]. assert (Hh := I_head _ G1). unfold head_ok in Hh. rewrite N1 in Hh.
    destruct E5 as [E5 | [[E5 _] | [E5 E6]]]; rewrite E5 in *.
    - destruct Hh as (e2 & H1 & H2 & _). unfold node_mode in Dr. rewrite H1 in Dr. congruence.
    - destruct D4 as (e2 & C2 & _). left. congruence.
    - right. destruct Hh as [Hh | (e2 & s & H1 & _ & _ & H2 & _)]; [congruence|]. destruct (N4 Dr) as (n3 & up3 & ent & pre & F1 & F2 & _).
      assert (e2 = e) by congruence. subst e2. congruence. }
  rewrite <- T in G6, G7.
  destruct s2 as [d2 g2].
  apply asks_payload with (cur := cur) in AP; auto.
  2:{ exists n, up. rewrite E2. split; [exact N1|]. split; [exact N2|]. destruct cur as [[e data]|]; [|exact N3].
      destruct N3 as [N3 N4]. split; [exact N3|]. intros Q Dr. destruct (N4 Dr) as (n3 & up3 & ent & pre & F1 & F2 & F3 & F4 & F5 & F6).
      rewrite <- Ty, T. auto. }
  destruct AP as (-> & PO & TP & _ & X1 & X2 & X3 & X4 & X5 & X6 & X7). rewrite <- X7 in G7.
  apply asks_hardlink with (cur := cur) in AH; auto; [|congruence|congruence|].
  2:{ exists n, up. rewrite E2. split; [exact N1|]. split; [exact N2|]. destruct cur as [[e data]|]; [|exact N3].
      destruct N3 as [N3 N4]. split; [exact N3|]. intros Dr. destruct (N4 Dr) as (n3 & up3 & ent & pre & F1 & F2 & F3 & F4 & F5 & F6).
      exists pre, ent, (d_buf d' ++ i). split; [rewrite D1', F3, <- !app_assoc; reflexivity|]. split; [|rewrite X7, <- Ty, T; exact F6].
      rewrite <- K2. destruct F4 as [F4 | F4]; [|split; [exact F4|split; [exact K1|exact (N5 e data eq_refl Dr)]]]. exfalso. assert (n3 = n) by congruence. subst n3. unfold node_mode in Dr. rewrite F2 in Dr. congruence. }
  destruct AH as (-> & HO & TH & Y1 & Y2 & Y3 & Y4 & Y5 & Y6 & Y7).
  split; [exact PO|]. split; [exact HO|].
  apply mkGI; [exact I'|congruence| | | | | |].
  - rewrite <- G3. unfold is_naked. rewrite E2. reflexivity.
  - repeat split; congruence.
  - right. split; [exact K|]. right. rewrite E1. auto.
  - rewrite Y7. exact TP.
  - exact TH.
  - exists A. split; [exact D1'|]. split; [congruence|]. rewrite E4, takeN_0, app_nil_r, E3, Y6, X6, T. auto.
Qed.

Lemma GI_finished d g i cur d' v s2 : GI d g i cur -> decoder_step env d = Ok (R_FINISHED, d') -> asks (gd_archive H) (d', g) v s2 ->
  exists used, i0 = used ++ d_buf d' ++ i /\ (forall v0, v = Some v0 -> v0 = if negb wa then Err ENOMEDIUM else Ok (H atype used)).
Proof.
  intros [G1 G2 G3 G4 G5 G6 G7 (B & D1 & D2 & D3 & D4)] ST AA.
  pose proof (step_shape _ _ _ _ G1 G2 ST) as [SB S].
  set (A := B ++ takeN (d_step d) (d_buf d)) in *. exists A.
  assert (D1' : i0 = A ++ d_buf d' ++ i).
  { unfold A. rewrite SB, D1, <- app_assoc. f_equal. rewrite app_assoc, takeN_dropN. reflexivity. }
  split; [exact D1'|]. destruct S as (E1 & E2 & E3 & E4 & E5).
  assert (T : d_type d' = d_type d) by (unfold d_type; congruence).
  assert (Ty : d_type d = atype).
  { unfold d_type, atype. destruct G5 as [(Q1 & Q2 & Q3 & Q4) | (Q1 & [(Q2 & Q3 & Q4) | [Q2 Q3]])]; rewrite Q1.
    - rewrite Q2. reflexivity.
    - exfalso. destruct E5 as [E5 | [[E5 E6] | [E5 E6]]]; congruence.
    - rewrite Q3. reflexivity. }
  destruct G4 as (W1 & _).
  assert (G : gd_archive H (d', g) = if negb wa then Err ENOMEDIUM
    else let! (v, c) := digest_read H (digest_allocated (g_a g) (d_type d')) in Ok (v, (d', set_a g (Some c)))).
  { unfold gd_archive. rewrite W1, E3. reflexivity. }
  intros v0 V0. rewrite V0 in AA.
  destruct wa eqn:Ew; cbn [negb] in *.
  - assert (HA := D3 eq_refl). rewrite <- T in HA. rewrite (holds_read _ _ _ _ HA) in G. cbn [bind] in G. rewrite T, Ty in G.
    inversion AA; subst; congruence.
  - inversion AA; subst; congruence.
Qed.

Lemma grun_reports s i o r : grun H env s i o r -> forall d g cur, s = (d, g) -> GI d g i cur ->
  reports cur o /\ match r with
                   | GFinished rest v => exists used, i0 = used ++ rest /\ (forall v0, v = Some v0 -> v0 = if negb wa then Err ENOMEDIUM else Ok (H atype used))
                   | GStopped => True
                   end.
Proof.
  induction 1 as [d1 g1 p i d' o r P R IH | d1 g1 o r R IH | s i x s' o r ST N1 N2 R IH | s i s1 vp s2 vh s3 o r ST AP AH R IH | s i s1 v s2 ST AA | s i];
    intros d g cur E G.
  - injection E as -> ->. eapply IH; [reflexivity|]. eapply GI_put; eassumption.
  - injection E as -> ->. eapply IH; [reflexivity|]. apply GI_eof, G.
  - subst s. unfold gd_step in ST. cbn [fst snd] in ST. destruct (decoder_step env d) as [[x2 d']| | |] eqn:DS; try discriminate.
    injection ST as -> <-. destruct (IH _ _ _ eq_refl (GI_step _ _ _ _ _ _ G DS N1 N2)) as [IH1 IH2].
    split; [|exact IH2]. cbn [fst]. apply reports_see. exact IH1.
  - subst s. unfold gd_step in ST. cbn [fst snd] in ST. destruct (decoder_step env d) as [[x2 d']| | |] eqn:DS; try discriminate.
    injection ST as -> <-. destruct s3 as [d3 g3]. destruct (GI_done _ _ _ _ _ _ _ _ _ _ G DS AP AH) as (A1 & A2 & G').
    destruct (IH _ _ _ eq_refl G') as [IH1 IH2]. split; [|exact IH2].
    apply reports_see. cbn [observe see see1 reports]. auto.
  - subst s. unfold gd_step in ST. cbn [fst snd] in ST. destruct (decoder_step env d) as [[x2 d']| | |] eqn:DS; try discriminate.
    injection ST as -> <-. split; [exact I|]. cbn [fst]. eapply GI_finished; eassumption.
  - split; exact I.
Qed.

Lemma GI_new mode d : decoder_new mode = Ok d -> nk = negb (S_ISDIR mode) -> GI d (digs_new wa wp wh) i0 None.
Proof.
  intros D K. assert (HI := Inv_new _ _ D). unfold decoder_new in D.
  destruct (negb (S_ISREG mode) && negb (S_ISDIR mode) && negb (S_ISBLK mode))%bool eqn:C; [discriminate|]. injection D as <-.
  assert (NK : is_naked (mkDec D_INIT UINT64_MAX [mkDnode [] (if S_ISDIR mode then 0 else UINT64_MAX) None mode] [] false 0 0 0 0) = nk).
  { unfold is_naked. cbn [d_nodes dn_entry dn_mode some negb andb]. rewrite K. destruct (S_ISDIR mode) eqn:Dr; cbn [negb].
    - unfold S_ISDIR, S_ISREG, S_ISBLK, is_type in *. apply N.eqb_eq in Dr. rewrite Dr. reflexivity.
    - destruct (S_ISREG mode), (S_ISBLK mode); try reflexivity. discriminate. }
  apply mkGI.
  - exact HI.
  - discriminate.
  - exact NK.
  - repeat split.
  - cbn [d_state d_ff]. destruct nk; [left; repeat split; auto|right; split; [reflexivity|left; repeat split]].
  - left. reflexivity.
  - left. reflexivity.
  - exists []. split; [reflexivity|]. split; [auto|]. split; [intros _; left; auto|reflexivity].
Qed.
End Run.
