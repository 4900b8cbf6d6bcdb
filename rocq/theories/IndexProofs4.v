(** Writing an index: every history of calls. *)
From Verif Require Import Base Chunker FeatureFlags FeatureFlagsSpec FeatureFlagsProofs Index IndexSpec IndexRun IndexProofs IndexProofs2 IndexProofs3.
Local Open Scope N_scope.

Definition okres (r : res (list N)) : bool := match r with Ok _ => true | _ => false end.
(** What one call does to the history variables. *)
Definition gstep (o : wop) (r : res (list N)) (g g' : ghost) : Prop :=
  g_chunks g' = g_chunks g ++ trace_chunks [(o, r)] /\ g_eof g' = g_eof g || trace_eof [(o, r)] /\
  g_inst g' = g_inst g || trace_installed [(o, r)] /\ g_out g' = g_out g ++ trace_pulled [(o, r)] /\
  (g_hdr g <> None -> g_hdr g' = g_hdr g).

Lemma gstep_refl_err o e g : gstep o (Err e) g g.
Proof. unfold gstep. destruct o; cbn; rewrite ?app_nil_r, ?orb_false_r; repeat split. Qed.
Lemma gstep_hdr_err o e g g' : same_but_hdr g g' -> gstep o (Err e) g g'.
Proof. intros (H1 & H2 & H3 & H4 & H5). unfold gstep. rewrite H1, H2, H3, H4. destruct o; cbn; rewrite ?app_nil_r, ?orb_false_r; repeat split; intros X; rewrite (H5 X); reflexivity. Qed.

Definition quiet (o : wop) : Prop := match o with WSetFlags _ | WSetMin _ | WSetAvg _ | WSetMax _ | WSpace _ => True | _ => False end.
Lemma gstep_quiet o d g : quiet o -> gstep o (Ok d) g g.
Proof. intros H. unfold gstep. destruct o; try contradiction; cbn; rewrite ?app_nil_r, ?orb_false_r; repeat split. Qed.

Lemma winv_set_flags fin0 g s f : winv fin0 g s -> feature_flags_are_normalized f = Ok true -> winv fin0 g (upd_flags f s).
Proof. intros [] H. destruct s; cbn in *. constructor; cbn; assumption. Qed.
Lemma winv_set_sizes fin0 g s a b c : winv fin0 g s -> limits a -> limits b -> limits c -> winv fin0 g (upd_sizes a b c s).
Proof. intros [] H1 H2 H3. destruct s; cbn in *. constructor; cbn; assumption. Qed.
Lemma winv_set_limit fin0 g s n : winv fin0 g s -> winv fin0 g (upd_limit n s).
Proof. intros []. destruct s; cbn in *. constructor; cbn; assumption. Qed.

Lemma set_size_cases which v s : is_write_mode (x_mode s) = true ->
  let r := index_set_chunk_size which v s in
  (~ (1 <= v <= 134217728) /\ r = (Err EINVAL, s)) \/
  (1 <= v <= 134217728 /\ r = (Ok tt, match which with 0 => upd_sizes v (x_avg s) (x_max s) s | 1 => upd_sizes (x_min s) v (x_max s) s | _ => upd_sizes (x_min s) (x_avg s) v s end)).
Proof.
  intros M. cbv zeta. unfold index_set_chunk_size, LIMIT_MIN, LIMIT_MAX. rewrite bind_get, !bind_guard. rewrite M.
  destruct (N.ltb_spec v 1) as [L|L]; cbn [negb]; [left; split; [lia|reflexivity]|].
  destruct (N.ltb_spec 134217728 v) as [L2|L2]; cbn [negb]; [left; split; [lia|reflexivity]|].
  right. split; [lia|]. unfold modS. reflexivity.
Qed.

Lemma img_write_chunk g id sz : g_eof g = false -> g_hdr g <> None ->
  img (Ghost (g_hdr g) (g_chunks g ++ [(id, sz)]) (g_eof g) (g_inst g) (g_out g)) = img g ++ le64 (blob_size_of (g_chunks g) + sz) ++ id.
Proof.
  intros He Hh. unfold img. cbn [g_hdr g_chunks g_eof]. rewrite He. destruct (g_hdr g) as [[[[f mi] av] ma]|]; [|congruence].
  rewrite image_entries_app, !app_nil_r, <- !app_assoc. cbn [image_entries]. rewrite N.add_0_l, app_nil_r. reflexivity.
Qed.
Lemma img_len fin0 g s : winv fin0 g s -> g_eof g = false -> g_hdr g <> None -> len (img g) = 64 + 40 * len (g_chunks g).
Proof.
  intros W He Hh. unfold img. rewrite He. destruct (g_hdr g) as [[[[f mi] av] ma]|]; [|congruence].
  rewrite app_nil_r, len_app, head_bytes_len, entries_len by apply (v_chunks _ _ _ W). reflexivity.
Qed.
Lemma img_write_eof g : g_eof g = false -> g_hdr g <> None ->
  img (Ghost (g_hdr g) (g_chunks g) true (g_inst g) (g_out g)) = img g ++ tail_of (16 + 40 * (len (g_chunks g) + 1)).
Proof.
  intros He Hh. unfold img. cbn [g_hdr g_chunks g_eof]. rewrite He. destruct (g_hdr g) as [[[[f mi] av] ma]|]; [|congruence].
  rewrite !app_nil_r, <- !app_assoc. reflexivity.
Qed.

Lemma write_chunk_winv fin0 g s id sz : winv fin0 g s -> length id = 32%nat -> bytes_ok id = true ->
  let r := index_write_chunk id sz s in
  (fst r = Err ENOSPC /\ x_limit s < 104 + 40 * len (g_chunks g)) \/
  exists g', winv fin0 g' (snd r) /\
  ((exists e, fst r = Err e /\ e <> ENOSPC /\ same_but_hdr g g' /\
      (g_eof g = true \/ sizes_set s = false \/ sz = 0 \/ x_max s < sz \/ two64 <= blob_size_of (g_chunks g) + sz)) \/
   (fst r = Ok tt /\ g_eof g = false /\ 0 < sz <= x_max s /\ blob_size_of (g_chunks g) + sz < two64 /\ x_max (snd r) = x_max s /\ x_limit (snd r) = x_limit s /\
    exists g1, same_but_hdr g g1 /\ g_hdr g1 <> None /\ (g_hdr g = None -> g_hdr g1 = Some (x_flags s, x_min s, x_avg s, x_max s)) /\
      g' = Ghost (g_hdr g1) (g_chunks g ++ [(id, sz)]) (g_eof g) (g_inst g) (g_out g))).
Proof.
  intros W Hid Hb. cbv zeta. unfold index_write_chunk. rewrite bind_get, !bind_guard.
  destruct (N.eqb_spec sz 0) as [Z|Z]; cbn [negb].
  { right. exists g. split; [exact W|]. left. exists EINVAL. split; [reflexivity|]. split; [discriminate|]. split; [repeat split|auto]. }
  rewrite (v_mode _ _ _ W), (v_eof _ _ _ W).
  destruct (g_eof g) eqn:He; cbn [negb].
  { right. exists g. split; [exact W|]. left. exists EBUSY. split; [reflexivity|]. split; [discriminate|]. split; [repeat split|auto]. }
  destruct (open_winv fin0 g s W) as [[E Lim]|[(Hs & Hn & e & E & Ne & W1)|(E & L1 & L2 & L3 & g1 & W1 & Sb & Hn & Hh)]].
  - left. split; [|lia]. unfold bindM at 1. destruct (index_open s) as [r0 s0]. cbn [fst] in E. subst r0. reflexivity.
  - right. exists g. destruct (index_open s) as [r0 s0] eqn:O. cbn [fst snd] in *. subst r0. rewrite (bind_err _ _ _ _ _ O). cbn [fst snd]. split; [exact W1|].
    left. exists e. split; [reflexivity|]. split; [exact Ne|]. split; [repeat split|]. auto.
  - destruct (index_open s) as [r0 s1] eqn:O. cbn [fst snd] in *. subst r0. rewrite (bind_ok _ _ _ _ _ O), bind_get, bind_guard. rewrite L2.
    destruct Sb as (B1 & B2 & B3 & B4 & B5).
    destruct (N.ltb_spec (x_max s) sz) as [M|M]; cbn [negb].
    { right. exists g1. split; [exact W1|]. left. exists EINVAL. split; [reflexivity|]. split; [discriminate|]. split; [repeat split; assumption|auto]. }
    rewrite bind_guard, (v_prev _ _ _ W1), B1.
    pose proof (v_blob _ _ _ W) as Hbl.
    assert (Hmx : x_max s <= 134217728) by (destruct (v_max _ _ _ W); lia).
    destruct (N.ltb_spec ((blob_size_of (g_chunks g) + sz) mod two64) (blob_size_of (g_chunks g))) as [V|V]; cbn [negb].
    { right. exists g1. split; [exact W1|]. left. exists E2BIG. split; [reflexivity|]. split; [discriminate|]. split; [repeat split; assumption|].
      right. right. right. right. destruct (N.ltb_spec (blob_size_of (g_chunks g) + sz) two64) as [Y|Y]; [|exact Y]. rewrite N.mod_small in V by exact Y. lia. }
    assert (Y : blob_size_of (g_chunks g) + sz < two64).
    { destruct (N.ltb_spec (blob_size_of (g_chunks g) + sz) two64) as [Y|Y]; [exact Y|exfalso].
      assert (X : (blob_size_of (g_chunks g) + sz) mod two64 = blob_size_of (g_chunks g) + sz - two64).
      { symmetry. apply (N.mod_unique _ _ 1); unfold two64 in *; lia. } rewrite X in V. unfold two64 in *. lia. }
    rewrite N.mod_small by exact Y.
    set (d := le64 (blob_size_of (g_chunks g) + sz) ++ id).
    assert (Hd : len d = 40) by (unfold d; rewrite len_app, le64_len; unfold len; lia).
    destruct (loop_write_cases d s1) as [[F Lim]|F]; [rewrite (v_data _ _ _ W1); apply (v_fpos _ _ _ W1)| |].
    { left. split; [|rewrite L1, Hd, (v_data _ _ _ W1), (img_len _ _ _ W1) in Lim by congruence; rewrite B1 in Lim; lia]. unfold bindM at 1. destruct (loop_write d s1) as [r0 s0]. cbn [fst] in F. subst r0. reflexivity. }
    right. rewrite (bind_ok _ _ _ _ _ F). unfold modS. cbn [fst snd].
    exists (Ghost (g_hdr g1) (g_chunks g ++ [(id, sz)]) (g_eof g) (g_inst g) (g_out g)).
    assert (I : img (Ghost (g_hdr g1) (g_chunks g ++ [(id, sz)]) (g_eof g) (g_inst g) (g_out g)) = img g1 ++ d).
    { rewrite <- B1, <- B2, <- B3, <- B4. rewrite img_write_chunk; [rewrite B1; reflexivity|congruence|exact Hn]. }
    assert (Hi : g_inst g = false) by (destruct (g_inst g) eqn:X; [rewrite (v_inst_eof _ _ _ W X) in He; discriminate|reflexivity]).
    clearbody d. split.
    + destruct W1 as [V1 V2 V3 V4 V5 V6 V7 V8 V9 V10 V11 V12 V13 V14 V15 V16 V17 V18 V19 V20 V21 V22 V23].
      clear F O W. destruct s1 as [m f a b c dd e gg h i j k l n o p q r].
      cbn in V1, V2, V3, V4, V5, V6, V7, V8, V9, V10, V11, V12, V13, V19, V20, V23, L1, L2, L3. rewrite B1, B2, B3, B4 in *.
      constructor; cbn -[img len blob_size_of]; rewrite ?I; try assumption.
      * rewrite Hi in *. exact V6.
      * rewrite V7. reflexivity.
      * rewrite V7, Hd, len_app, Hd. reflexivity.
      * rewrite V9, len_app, Hd. reflexivity.
      * intros; congruence.
      * apply Forall_app. split; [exact V18|]. constructor; [|constructor]. unfold chunk_lim. cbn [fst snd]. repeat split; [assumption|assumption|lia|lia].
      * rewrite V19, len_app. reflexivity.
      * rewrite blob_size_app. cbn [blob_size_of fold_right snd]. rewrite N.add_0_r. reflexivity.
      * rewrite blob_size_app. cbn [blob_size_of fold_right snd]. rewrite N.add_0_r. exact Y.
      * destruct V22 as [rest V22]. exists (rest ++ d). rewrite V22, app_assoc. reflexivity.
    + right. split; [reflexivity|]. split; [reflexivity|]. split; [lia|]. split; [exact Y|].
      split; [rewrite <- L2; destruct s1; reflexivity|]. split; [rewrite <- L1; destruct s1; reflexivity|].
      exists g1. split; [repeat split; assumption || congruence|]. split; [exact Hn|]. split; [intros X; apply Hh, X|rewrite <- B2, <- He, B2, He; reflexivity].
Qed.

Lemma write_eof_winv fin0 g s : winv fin0 g s ->
  let r := index_write_eof s in
  (fst r = Err ENOSPC /\ x_limit s < 104 + 40 * len (g_chunks g)) \/
  exists g', winv fin0 g' (snd r) /\
  ((exists e, fst r = Err e /\ e <> ENOSPC /\ same_but_hdr g g' /\ (g_eof g = true \/ sizes_set s = false)) \/
   (fst r = Ok tt /\ g_eof g = false /\
    exists g1, same_but_hdr g g1 /\ g_hdr g1 <> None /\ (g_hdr g = None -> g_hdr g1 = Some (x_flags s, x_min s, x_avg s, x_max s)) /\
      g' = Ghost (g_hdr g1) (g_chunks g) true (g_inst g) (g_out g))).
Proof.
  intros W. cbv zeta. unfold index_write_eof. rewrite bind_get, !bind_guard.
  rewrite (v_mode _ _ _ W), (v_eof _ _ _ W).
  destruct (g_eof g) eqn:He; cbn [negb].
  { right. exists g. split; [exact W|]. left. exists EBUSY. split; [reflexivity|]. split; [discriminate|]. split; [repeat split|auto]. }
  destruct (open_winv fin0 g s W) as [[E Lim]|[(Hs & Hn & e & E & Ne & W1)|(E & L1 & L2 & L3 & g1 & W1 & Sb & Hn & Hh)]].
  - left. split; [|lia]. unfold bindM at 1. destruct (index_open s) as [r0 s0]. cbn [fst] in E. subst r0. reflexivity.
  - right. exists g. destruct (index_open s) as [r0 s0] eqn:O. cbn [fst snd] in *. subst r0. rewrite (bind_err _ _ _ _ _ O). cbn [fst snd]. split; [exact W1|].
    left. exists e. split; [reflexivity|]. split; [exact Ne|]. split; [repeat split|]. auto.
  - destruct (index_open s) as [r0 s1] eqn:O. cbn [fst snd] in *. subst r0. rewrite (bind_ok _ _ _ _ _ O), bind_get.
    destruct Sb as (B1 & B2 & B3 & B4 & B5).
    rewrite (v_item _ _ _ W1), B1.
    replace (16 + len (g_chunks g) * 40 + 40) with (16 + 40 * (len (g_chunks g) + 1)) by lia.
    change (tail_bytes ?n) with (tail_of n). set (d := tail_of _).
    assert (Hd : len d = 40) by reflexivity.
    destruct (loop_write_cases d s1) as [[F Lim]|F]; [rewrite (v_data _ _ _ W1); apply (v_fpos _ _ _ W1)| |].
    { left. split; [|rewrite L1, Hd, (v_data _ _ _ W1), (img_len _ _ _ W1) in Lim by congruence; rewrite B1 in Lim; lia]. unfold bindM at 1. destruct (loop_write d s1) as [r0 s0]. cbn [fst] in F. subst r0. reflexivity. }
    right. rewrite (bind_ok _ _ _ _ _ F). unfold modS. cbn [fst snd].
    exists (Ghost (g_hdr g1) (g_chunks g) true (g_inst g) (g_out g)).
    assert (I : img (Ghost (g_hdr g1) (g_chunks g) true (g_inst g) (g_out g)) = img g1 ++ d).
    { rewrite <- B1, <- B3, <- B4. rewrite img_write_eof; [rewrite B1; reflexivity|congruence|exact Hn]. }
    assert (Hi : g_inst g = false) by (destruct (g_inst g) eqn:X; [rewrite (v_inst_eof _ _ _ W X) in He; discriminate|reflexivity]).
    clearbody d. split.
    + destruct W1 as [V1 V2 V3 V4 V5 V6 V7 V8 V9 V10 V11 V12 V13 V14 V15 V16 V17 V18 V19 V20 V21 V22 V23].
      clear F O W. destruct s1 as [m f a b c dd e gg h i j k l n o p q r].
      cbn in V1, V2, V3, V4, V5, V6, V7, V8, V9, V10, V11, V12, V13, V19, V20, V23, L1, L2, L3. rewrite B1, B2, B3, B4 in *.
      constructor; cbn -[img len blob_size_of]; rewrite ?I; try assumption; try reflexivity.
      * rewrite Hi in *. exact V6.
      * rewrite V7. reflexivity.
      * rewrite V7, Hd, len_app, Hd. reflexivity.
      * rewrite V9, len_app, Hd. reflexivity.
      * intros _. exact Hn.
      * destruct V22 as [rest V22]. exists (rest ++ d). rewrite V22, app_assoc. reflexivity.
    + right. split; [reflexivity|]. split; [reflexivity|].
      exists g1. split; [repeat split; assumption || congruence|]. split; [exact Hn|]. split; [intros X; apply Hh, X|reflexivity].
Qed.

Lemma normalize_normalized f f' : feature_flags_normalize f = Ok f' -> feature_flags_are_normalized f' = Ok true.
Proof.
  intros H. destruct (normalize_Ok f f' H) as (Kf & Kg & B). rewrite are_normalized_bits by exact Kg. f_equal.
  unfold anb. rewrite !B. apply anb_normb.
Qed.

Lemma wstep_winv fin0 g s o : wop_ok o -> winv fin0 g s ->
  let r := wstep o s in fst r = Err ENOSPC \/ exists g', winv fin0 g' (snd r) /\ gstep o (fst r) g g'.
Proof.
  intros Ho W. cbv zeta.
  assert (Size : forall which v, let r := discard (index_set_chunk_size which v) s in
    winv fin0 g (snd r) /\ (fst r = Err EINVAL \/ fst r = Ok [])).
  { intros which v. cbv zeta. unfold discard.
    destruct (set_size_cases which v s (v_mode _ _ _ W)) as [[_ E]|[L E]].
    - rewrite (bind_err _ _ _ _ _ E). cbn [fst snd]. auto.
    - rewrite (bind_ok _ _ _ _ _ E). unfold ret. cbn [fst snd]. split; [|auto].
      destruct W as [V1 V2 V3 V4 V5 V6 V7 V8 V9 V10 V11 V12 V13 V14 V15 V16 V17 V18 V19 V20 V21 V22 V23].
      assert (limits v) by (right; exact L).
      destruct which as [|[| |]]; apply winv_set_sizes; try assumption; constructor; assumption. }
  destruct o as [f|v|v|v|id sz| | | |n]; cbn [wstep].
  - right. exists g. unfold discard. unfold index_set_feature_flags.
    assert (X : forall A B C (m : op A) (h : A -> op B) (k : B -> op C) s, bindM (bindM m h) k s = bindM m (fun a => bindM (h a) k) s).
    { intros. unfold bindM. destruct (m s0) as [[| | |] ?]; reflexivity. }
    rewrite X, bind_get, X, bind_guard. rewrite (v_mode _ _ _ W). rewrite X, bind_guard.
    destruct (negb (0 <? x_start s)); [|split; [exact W|apply gstep_refl_err]].
    destruct (feature_flags_normalize f) as [f'|e| |] eqn:E.
    + rewrite bind_mod. unfold ret. cbn [fst snd]. split; [|apply gstep_quiet; exact I]. apply winv_set_flags; [exact W|]. eapply normalize_normalized, E.
    + split; [exact W|apply gstep_refl_err].
    + exfalso. revert E. rewrite normalize_steps. destruct (f =? UINT64_MAX); [discriminate|]. destruct (N.ldiff f FEATURE_FLAGS_MAX =? 0); discriminate.
    + exfalso. revert E. rewrite normalize_steps. destruct (f =? UINT64_MAX); [discriminate|]. destruct (N.ldiff f FEATURE_FLAGS_MAX =? 0); discriminate.
  - right. exists g. destruct (Size 0 v) as [W' [E|E]]; unfold index_set_chunk_size_min; rewrite E; (split; [exact W'|]); [apply gstep_refl_err|apply gstep_quiet; exact I].
  - right. exists g. destruct (Size 1 v) as [W' [E|E]]; unfold index_set_chunk_size_avg; rewrite E; (split; [exact W'|]); [apply gstep_refl_err|apply gstep_quiet; exact I].
  - right. exists g. destruct (Size 2 v) as [W' [E|E]]; unfold index_set_chunk_size_max; rewrite E; (split; [exact W'|]); [apply gstep_refl_err|apply gstep_quiet; exact I].
  - destruct Ho as [Ho1 Ho2]. unfold discard. destruct (write_chunk_winv fin0 g s id sz W Ho1 Ho2) as [[E _]|(g' & W' & [(e & E & _ & S & _)|(E & He & _ & _ & _ & _ & g1 & S & _ & _ & G)])];
      destruct (index_write_chunk id sz s) as [r0 s0] eqn:Q; cbn [fst snd] in *; subst r0.
    + left. rewrite (bind_err _ _ _ _ _ Q). reflexivity.
    + right. rewrite (bind_err _ _ _ _ _ Q). exists g'. split; [exact W'|]. apply gstep_hdr_err, S.
    + right. rewrite (bind_ok _ _ _ _ _ Q). exists g'. split; [exact W'|]. subst g'. destruct S as (S1 & S2 & S3 & S4 & S5). unfold gstep, ret. cbn.
      rewrite !orb_false_r, app_nil_r. repeat split. intros X. rewrite (S5 X). reflexivity.
  - unfold discard. destruct (write_eof_winv fin0 g s W) as [[E _]|(g' & W' & [(e & E & _ & S & _)|(E & He & g1 & S & _ & _ & G)])];
      destruct (index_write_eof s) as [r0 s0] eqn:Q; cbn [fst snd] in *; subst r0.
    + left. rewrite (bind_err _ _ _ _ _ Q). reflexivity.
    + right. rewrite (bind_err _ _ _ _ _ Q). exists g'. split; [exact W'|]. apply gstep_hdr_err, S.
    + right. rewrite (bind_ok _ _ _ _ _ Q). exists g'. split; [exact W'|]. subst g'. destruct S as (S1 & S2 & S3 & S4 & S5). unfold gstep, ret. cbn.
      rewrite !orb_false_r, !app_nil_r, orb_true_r. repeat split. intros X. rewrite (S5 X). reflexivity.
  - right. unfold discard.
    assert (NR : is_mode_read (x_mode s) = false) by (pose proof (v_mode _ _ _ W); destruct (x_mode s); try discriminate; reflexivity).
    destruct (g_eof g) eqn:He.
    + assert (Hh : g_hdr g <> None) by (apply (v_eof_hdr _ _ _ W), He).
      destruct (g_inst g) eqn:Hi.
      * assert (Q : index_install s = (Ok false, s)).
        { unfold index_install. rewrite bind_get, !bind_guard, NR, (v_eof _ _ _ W), He, (v_temp _ _ _ W), Hi, andb_false_r. reflexivity. }
        rewrite (bind_ok _ _ _ _ _ Q). exists g. split; [exact W|]. unfold gstep, ret. cbn. rewrite !orb_false_r, !app_nil_r, Hi. repeat split.
      * assert (Q : index_install s = (Ok true, upd_final (Some (x_data s)) (upd_open (x_open s) false s))).
        { unfold index_install. rewrite bind_get, !bind_guard, NR, (v_eof _ _ _ W), He, (v_temp _ _ _ W), Hi, (v_open _ _ _ W Hh). cbn [negb andb]. rewrite bind_mod, (v_open _ _ _ W Hh). reflexivity. }
        rewrite (bind_ok _ _ _ _ _ Q). unfold ret. cbn [fst snd]. exists (Ghost (g_hdr g) (g_chunks g) (g_eof g) true (g_out g)). split.
        { destruct W as [V1 V2 V3 V4 V5 V6 V7 V8 V9 V10 V11 V12 V13 V14 V15 V16 V17 V18 V19 V20 V21 V22 V23]. clear Q.
          destruct s. cbn in V1, V2, V3, V4, V5, V6, V7, V8, V9, V10, V11, V12, V13, V19, V20, V23. constructor; cbn; try assumption.
          - rewrite V7. reflexivity.
          - rewrite andb_false_r. reflexivity.
          - intros _. exact He. }
        unfold gstep. cbn. rewrite Hi, !app_nil_r, !orb_false_r. repeat split.
    + assert (Q : index_install s = (Err EBUSY, s)).
      { unfold index_install. rewrite bind_get, !bind_guard, NR, (v_eof _ _ _ W), He. reflexivity. }
      rewrite (bind_err _ _ _ _ _ Q). exists g. split; [exact W|]. apply gstep_refl_err.
  - unfold index_incremental_read.
    assert (X : forall A B C (m : op A) (h : A -> op B) (k : B -> op C) s, bindM (bindM m h) k s = bindM m (fun a => bindM (h a) k) s).
    { intros. unfold bindM. destruct (m s0) as [[| | |] ?]; reflexivity. }
    rewrite X, bind_get, X, bind_guard. destruct (is_mode_iwrite (x_mode s)) eqn:Hm; [|right; exists g; split; [exact W|apply gstep_refl_err]].
    rewrite X.
    destruct (open_winv fin0 g s W) as [[E _]|[(Hs & Hn & e & E & Ne & W1)|(E & L1 & L2 & L3 & g1 & W1 & Sb & Hn & Hh)]];
      destruct (index_open s) as [r0 s1] eqn:Q; cbn [fst snd] in *; subst r0.
    + left. rewrite (bind_err _ _ _ _ _ Q). reflexivity.
    + right. rewrite (bind_err _ _ _ _ _ Q). exists g. split; [exact W1|]. apply gstep_refl_err.
    + right. rewrite (bind_ok _ _ _ _ _ Q), X, bind_get.
      destruct (N.leb_spec (x_cooked s1) (x_raw s1)) as [L|L].
      * destruct (x_eof s1) eqn:Eo.
        -- rewrite bind_ret. unfold ret. cbn [fst snd]. exists g1. split; [exact W1|]. destruct Sb as (S1 & S2 & S3 & S4 & S5). unfold gstep. cbn. rewrite !orb_false_r, !app_nil_r. repeat split; try assumption. intros Y. rewrite (S5 Y). reflexivity.
        -- cbn [fst snd]. exists g1. split; [exact W1|]. apply gstep_hdr_err, Sb.
      * rewrite X, bind_mod, bind_ret. unfold ret. cbn [fst snd].
        set (d := file_pread _ _ _). destruct Sb as (S1 & S2 & S3 & S4 & S5).
        exists (Ghost (g_hdr g1) (g_chunks g1) (g_eof g1) (g_inst g1) (g_out g1 ++ d)).
        assert (I : img (Ghost (g_hdr g1) (g_chunks g1) (g_eof g1) (g_inst g1) (g_out g1 ++ d)) = img g1) by reflexivity.
        assert (Dd : exists rest, img g1 = (g_out g1 ++ d) ++ rest).
        { destruct (v_out _ _ _ W1) as [rest R]. pose proof (v_raw _ _ _ W1) as Rw. pose proof (v_data _ _ _ W1) as Da.
          exists (dropN (N.min BUFFER_SIZE (x_cooked s1 - x_raw s1)) rest). unfold d, file_pread. rewrite Da, Rw, R, dropN_app_exact by reflexivity.
          rewrite <- app_assoc, takeN_dropN. reflexivity. }
        split.
        { clear Q. clearbody d. destruct W1 as [V1 V2 V3 V4 V5 V6 V7 V8 V9 V10 V11 V12 V13 V14 V15 V16 V17 V18 V19 V20 V21 V22 V23].
          destruct s1. cbn in V1, V2, V3, V4, V5, V6, V7, V8, V9, V10, V11, V12, V13, V19, V20, V23. constructor; cbn -[img len]; rewrite ?I; try assumption.
          rewrite len_app, V23. reflexivity. }
        unfold gstep. cbn. rewrite !orb_false_r, !app_nil_r. repeat split; try assumption; [rewrite S4; reflexivity|]. intros Y. rewrite (S5 Y). reflexivity.
  - right. exists g. unfold discard. rewrite bind_mod. unfold ret. cbn [fst snd]. split; [apply winv_set_limit, W|apply gstep_quiet; exact I].
Qed.

(** All the calls of a history. *)
Lemma trace_chunks_cons o r tr : trace_chunks ((o, r) :: tr) = trace_chunks [(o, r)] ++ trace_chunks tr.
Proof. destruct o, r; reflexivity. Qed.
Lemma trace_pulled_cons o r tr : trace_pulled ((o, r) :: tr) = trace_pulled [(o, r)] ++ trace_pulled tr.
Proof. destruct o, r; cbn; rewrite ?app_nil_r; reflexivity. Qed.
Lemma trace_installed_cons o r tr : trace_installed ((o, r) :: tr) = trace_installed [(o, r)] || trace_installed tr.
Proof. destruct o, r; reflexivity. Qed.
Lemma trace_eof_cons o r tr : trace_eof ((o, r) :: tr) = trace_eof [(o, r)] || trace_eof tr.
Proof. destruct o, r; reflexivity. Qed.

Lemma wrun_winv fin0 h : forall g s tr s', Forall wop_ok h -> winv fin0 g s -> wrun h s = (tr, s') -> ~ out_of_space tr ->
  exists g', winv fin0 g' s' /\ g_chunks g' = g_chunks g ++ trace_chunks tr /\ g_eof g' = g_eof g || trace_eof tr /\
    g_inst g' = g_inst g || trace_installed tr /\ g_out g' = g_out g ++ trace_pulled tr /\ (g_hdr g <> None -> g_hdr g' = g_hdr g).
Proof.
  induction h as [|o h IH]; intros g s tr s' Ho W E Hn; cbn [wrun] in E.
  - inversion E; subst. exists g. split; [exact W|]. cbn. rewrite !app_nil_r, !orb_false_r. repeat split.
  - inversion Ho as [|? ? Ho1 Ho2]; subst. destruct (wstep o s) as [r s1] eqn:S. destruct (wrun h s1) as [tr1 s2] eqn:R. inversion E; subst.
    pose proof (wstep_winv fin0 g s o Ho1 W) as X. rewrite S in X. cbn [fst snd] in X. destruct X as [X|(g1 & W1 & G1 & G2 & G3 & G4 & G5)].
    + exfalso. apply Hn. exists o. subst r. left. reflexivity.
    + destruct (IH g1 s1 tr1 s' Ho2 W1 R) as (g' & W' & I1 & I2 & I3 & I4 & I5).
      { intros (o' & Hin). apply Hn. exists o'. right. exact Hin. }
      exists g'. split; [exact W'|]. rewrite trace_chunks_cons, trace_pulled_cons, trace_installed_cons, trace_eof_cons.
      rewrite I1, I2, I3, I4, G1, G2, G3, G4, !app_assoc, !orb_assoc. repeat split. intros Y. rewrite <- (G5 Y). apply I5. rewrite (G5 Y). exact Y.
Qed.

(** A writer that is given valid chunks and has the space succeeds. *)
Definition write_all (l : list (list N * N)) : list wop := map (fun c => WChunk (fst c) (snd c)) l.

Definition writable (f mi av ma : N) (g : ghost) (s : idx) : Prop :=
  x_max s = ma /\ g_eof g = false /\
  match g_hdr g with None => x_flags s = f /\ x_min s = mi /\ x_avg s = av | Some h => h = (f, mi, av, ma) end.

Lemma sizes_set_ok f mi av ma g s : params_ok f mi av ma -> writable f mi av ma g s -> g_hdr g = None -> sizes_set s = true.
Proof.
  intros (P1 & P2 & P3 & P4 & P5) (H1 & H2 & H3) Hn. rewrite Hn in H3. destruct H3 as (H3 & H4 & H5). unfold sizes_set. rewrite H1, H4, H5. lia.
Qed.

Lemma open_no_fail fin0 g s e : winv fin0 g s -> fst (index_open s) = Err e -> g_hdr g = None.
Proof.
  intros W E. destruct (g_hdr g) eqn:H; [|reflexivity]. rewrite open_noop in E; [discriminate|apply (v_open _ _ _ W); congruence|].
  rewrite (v_start _ _ _ W), H. discriminate.
Qed.

Lemma write_chunk_succeeds fin0 f mi av ma g s id sz : winv fin0 g s -> params_ok f mi av ma -> writable f mi av ma g s -> chunk_ok ma (id, sz) ->
  blob_size_of (g_chunks g) + sz < two64 -> 104 + 40 * len (g_chunks g) <= x_limit s ->
  exists s', wstep (WChunk id sz) s = (Ok [], s') /\
    let g' := Ghost (Some (f, mi, av, ma)) (g_chunks g ++ [(id, sz)]) (g_eof g) (g_inst g) (g_out g) in
    winv fin0 g' s' /\ writable f mi av ma g' s' /\ x_limit s' = x_limit s.
Proof.
  intros W P (H1 & H2 & H3) (C1 & C2 & C3) Hb Hl. cbn [fst snd] in *.
  cbn [wstep]. unfold discard.
  destruct (write_chunk_winv fin0 g s id sz W C1 C2) as [[E L]|(g' & W' & [(e & E & Ne & S & Why)|(E & He & Hm & Hbl & Mx & Lm & g1 & S & Hn & Hh & G)])];
    destruct (index_write_chunk id sz s) as [r0 s0] eqn:Q; cbn [fst snd] in *; subst r0.
  - lia.
  - exfalso. destruct Why as [Why|[Why|[Why|[Why|Why]]]]; [congruence| |lia|lia|lia].
    destruct (g_hdr g) as [h|] eqn:Hh; [|rewrite (sizes_set_ok f mi av ma g s P) in Why; [discriminate| |exact Hh]; unfold writable; rewrite Hh; auto].
    (* with a header the sizes no longer matter *)
    revert Q. unfold index_write_chunk. rewrite bind_get, !bind_guard.
    replace (sz =? 0) with false by lia. rewrite (v_mode _ _ _ W), (v_eof _ _ _ W), H2. cbn [negb].
    assert (O : index_open s = (Ok tt, s)) by (apply open_noop; [apply (v_open _ _ _ W); congruence|rewrite (v_start _ _ _ W), Hh; discriminate]).
    rewrite (bind_ok _ _ _ _ _ O), bind_get, !bind_guard. replace (x_max s <? sz) with false by lia. cbn [negb].
    rewrite (v_prev _ _ _ W). rewrite N.mod_small by exact Hb. replace (blob_size_of (g_chunks g) + sz <? blob_size_of (g_chunks g)) with false by lia. cbn [negb].
    set (d := le64 _ ++ id). assert (Hd : len d = 40) by (unfold d; rewrite len_app, le64_len; unfold len; lia).
    rewrite (bind_ok _ _ _ _ _ (loop_write_ok d s ltac:(rewrite (v_data _ _ _ W); apply (v_fpos _ _ _ W)) ltac:(rewrite Hd, (v_data _ _ _ W), (img_len _ _ _ W) by congruence; lia))).
    discriminate.
  - rewrite (bind_ok _ _ _ _ _ Q). exists s0. split; [reflexivity|]. cbv zeta.
    assert (Eh : g_hdr g1 = Some (f, mi, av, ma)).
    { destruct S as (_ & _ & _ & _ & S5). destruct (g_hdr g) as [h|] eqn:Hg.
      - rewrite (S5 ltac:(discriminate)), Hg. congruence.
      - rewrite (Hh eq_refl). destruct H3 as (-> & -> & ->). rewrite H1. reflexivity. }
    rewrite Eh in G. rewrite <- G. split; [exact W'|]. split; [|exact Lm]. unfold writable. rewrite Mx, G. cbn [g_eof g_hdr]. auto.
Qed.

Lemma write_all_succeeds fin0 f mi av ma l : forall g s, winv fin0 g s -> params_ok f mi av ma -> writable f mi av ma g s -> Forall (chunk_ok ma) l ->
  blob_size_of (g_chunks g) + blob_size_of l < two64 -> 104 + 40 * (len (g_chunks g) + len l) <= x_limit s ->
  exists tr s' g', wrun (write_all l) s = (tr, s') /\ Forall (fun x => exists d, snd x = Ok d) tr /\
    winv fin0 g' s' /\ writable f mi av ma g' s' /\ x_limit s' = x_limit s /\ g_chunks g' = g_chunks g ++ l /\ g_inst g' = g_inst g /\
    (forall x, In x tr -> exists id sz, fst x = WChunk id sz).
Proof.
  induction l as [|[id sz] l IH]; intros g s W P Wr Hl Hb Hlim.
  - exists [], s, g. rewrite app_nil_r. split; [reflexivity|]. split; [constructor|]. repeat (split; [assumption || reflexivity|]). intros x [].
  - inversion Hl as [|? ? Hc Hl']; subst. cbn [blob_size_of fold_right snd] in Hb. fold (blob_size_of l) in Hb. rewrite len_cons in Hlim.
    destruct (write_chunk_succeeds fin0 f mi av ma g s id sz W P Wr Hc ltac:(lia) ltac:(lia)) as (s1 & E & W1 & Wr1 & L1).
    destruct (IH _ s1 W1 P Wr1 Hl') as (tr & s' & g' & R & F & W' & Wr' & L' & C' & I' & In').
    { cbn [g_chunks]. rewrite blob_size_app. cbn [blob_size_of fold_right snd]. fold (blob_size_of l). lia. }
    { cbn [g_chunks]. rewrite len_app, len_cons, L1. change (len (@nil (list N * N))) with 0. lia. }
    exists ((WChunk id sz, Ok []) :: tr), s', g'. split; [cbn [write_all map wrun fst snd]; rewrite E; fold (write_all l); rewrite R; reflexivity|].
    split; [constructor; [exists []; reflexivity|exact F]|]. split; [exact W'|]. split; [exact Wr'|]. split; [congruence|].
    split; [rewrite C'; cbn [g_chunks]; rewrite <- app_assoc; reflexivity|]. split; [exact I'|].
    intros x [<-|Hx]; [do 2 eexists; reflexivity|apply In', Hx].
Qed.

Lemma write_eof_succeeds fin0 f mi av ma g s : winv fin0 g s -> params_ok f mi av ma -> writable f mi av ma g s -> 104 + 40 * len (g_chunks g) <= x_limit s ->
  exists s', wstep WEof s = (Ok [], s') /\ winv fin0 (Ghost (Some (f, mi, av, ma)) (g_chunks g) true (g_inst g) (g_out g)) s'.
Proof.
  intros W P (H1 & H2 & H3) Hl. cbn [wstep]. unfold discard.
  destruct (write_eof_winv fin0 g s W) as [[E L]|(g' & W' & [(e & E & Ne & S & Why)|(E & He & g1 & S & Hn & Hh & G)])];
    destruct (index_write_eof s) as [r0 s0] eqn:Q; cbn [fst snd] in *; subst r0.
  - lia.
  - exfalso. destruct Why as [Why|Why]; [congruence|].
    destruct (g_hdr g) as [h|] eqn:Hh; [|rewrite (sizes_set_ok f mi av ma g s P) in Why; [discriminate| |exact Hh]; unfold writable; rewrite Hh; auto].
    revert Q. unfold index_write_eof. rewrite bind_get, !bind_guard, (v_mode _ _ _ W), (v_eof _ _ _ W), H2. cbn [negb].
    assert (O : index_open s = (Ok tt, s)) by (apply open_noop; [apply (v_open _ _ _ W); congruence|rewrite (v_start _ _ _ W), Hh; discriminate]).
    rewrite (bind_ok _ _ _ _ _ O), bind_get.
    set (d := tail_bytes _). assert (Hd : len d = 40) by reflexivity.
    rewrite (bind_ok _ _ _ _ _ (loop_write_ok d s ltac:(rewrite (v_data _ _ _ W); apply (v_fpos _ _ _ W)) ltac:(rewrite Hd, (v_data _ _ _ W), (img_len _ _ _ W) by congruence; lia))).
    discriminate.
  - rewrite (bind_ok _ _ _ _ _ Q). exists s0. split; [reflexivity|].
    assert (Eh : g_hdr g1 = Some (f, mi, av, ma)).
    { destruct S as (_ & _ & _ & _ & S5). destruct (g_hdr g) as [h|] eqn:Hg.
      - rewrite (S5 ltac:(discriminate)), Hg. congruence.
      - rewrite (Hh eq_refl). destruct H3 as (-> & -> & ->). rewrite H1. reflexivity. }
    rewrite Eh in G. rewrite <- G. exact W'.
Qed.

Lemma install_succeeds fin0 g s : winv fin0 g s -> g_eof g = true -> exists s', wstep WInstall s = (Ok [], s') /\ x_final s' = Some (img g).
Proof.
  intros W He. cbn [wstep]. unfold discard.
  assert (NR : is_mode_read (x_mode s) = false) by (pose proof (v_mode _ _ _ W); destruct (x_mode s); try discriminate; reflexivity).
  assert (Hh : g_hdr g <> None) by (apply (v_eof_hdr _ _ _ W), He).
  unfold index_install, bindM, getS. rewrite NR, (v_eof _ _ _ W), He, (v_temp _ _ _ W), (v_open _ _ _ W Hh). cbn.
  pose proof (v_final _ _ _ W) as V. pose proof (v_data _ _ _ W) as D.
  destruct (g_inst g); cbn; eexists; (split; [reflexivity|]); [exact V|]. destruct s; cbn in *. rewrite D. reflexivity.
Qed.

Lemma wrun_app h1 h2 s : wrun (h1 ++ h2) s = let (tr1, s1) := wrun h1 s in let (tr2, s2) := wrun h2 s1 in (tr1 ++ tr2, s2).
Proof.
  revert s. induction h1 as [|o h1 IH]; intros s; cbn [app wrun]; [destruct (wrun h2 s); reflexivity|].
  destruct (wstep o s) as [r s1]. rewrite IH. destruct (wrun h1 s1) as [tr1 s2]. destruct (wrun h2 s2) as [tr2 s3]. reflexivity.
Qed.

Lemma writer_complete m fin lim f0 f mi av ma l : is_write_mode m = true -> feature_flags_normalize f0 = Ok f -> params_ok f mi av ma -> Forall (chunk_ok ma) l ->
  blob_size_of l < two64 -> 104 + 40 * len l <= lim ->
  exists tr s', wrun ([WSetFlags f0; WSetMin mi; WSetAvg av; WSetMax ma] ++ write_all l ++ [WEof; WInstall]) (index_new m fin lim) = (tr, s') /\
    Forall (fun x => exists d, snd x = Ok d) tr /\ x_final s' = Some (index_image f mi av ma l).
Proof.
  intros M Hf P Hl Hb Hlim. set (s4 := upd_sizes mi av ma (upd_flags f (index_new m fin lim))).
  assert (E : wrun [WSetFlags f0; WSetMin mi; WSetAvg av; WSetMax ma] (index_new m fin lim) =
    ([(WSetFlags f0, Ok []); (WSetMin mi, Ok []); (WSetAvg av, Ok []); (WSetMax ma, Ok [])], s4)).
  { destruct P as (P1 & P2 & P3 & P4 & P5).
    cbn [wrun wstep]. unfold discard, index_set_feature_flags, index_set_chunk_size_min, index_set_chunk_size_avg, index_set_chunk_size_max, index_set_chunk_size, LIMIT_MIN, LIMIT_MAX.
    rewrite Hf. unfold bindM, getS, ret, modS, fail, index_new. cbn [x_mode x_start upd_flags upd_sizes x_min x_avg x_max]. rewrite M.
    change (0 <? 0) with false. cbn [negb]. cbn [x_mode x_start upd_flags upd_sizes x_min x_avg x_max]. rewrite M.
    replace (mi <? 1) with false by lia. replace (134217728 <? mi) with false by lia. cbn [negb x_mode x_start upd_flags upd_sizes x_min x_avg x_max]. rewrite M.
    replace (av <? 1) with false by lia. replace (134217728 <? av) with false by lia. cbn [negb x_mode x_start upd_flags upd_sizes x_min x_avg x_max]. rewrite M.
    replace (ma <? 1) with false by lia. replace (134217728 <? ma) with false by lia. cbn [negb x_mode x_start upd_flags upd_sizes x_min x_avg x_max]. reflexivity. }
  assert (W : winv fin (Ghost None [] false false []) s4).
  { destruct P as (P1 & P2 & P3 & P4 & P5). unfold s4. apply winv_set_sizes; [apply winv_set_flags; [apply winv_new, M|exact P1]|right; lia..]. }
  assert (Wr : writable f mi av ma (Ghost None [] false false []) s4) by (unfold writable, s4, index_new; cbn; auto).
  destruct (write_all_succeeds fin f mi av ma l _ s4 W P Wr Hl) as (tr & s5 & g5 & R & F & W5 & Wr5 & L5 & C5 & I5 & _).
  { cbn [g_chunks]. cbn. exact Hb. } { cbn [g_chunks]. change (len (@nil (list N * N))) with 0. unfold s4, index_new. cbn [x_limit upd_flags upd_sizes]. lia. }
  cbn [g_chunks app] in C5. cbn [g_inst] in I5.
  destruct (write_eof_succeeds fin f mi av ma g5 s5 W5 P Wr5) as (s6 & E6 & W6).
  { rewrite C5, L5. unfold s4, index_new. cbn [x_limit upd_flags upd_sizes]. lia. }
  destruct (install_succeeds fin _ s6 W6 eq_refl) as (s7 & E7 & F7).
  eexists. eexists. rewrite wrun_app, E, wrun_app, R. cbn [wrun]. rewrite E6, E7. split; [reflexivity|]. split.
  - apply Forall_app. split; [repeat constructor; eexists; reflexivity|]. apply Forall_app. split; [exact F|repeat constructor; eexists; reflexivity].
  - rewrite F7. unfold img. cbn [g_hdr g_chunks g_eof]. rewrite C5, image_split. reflexivity.
Qed.
