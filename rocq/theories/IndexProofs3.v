(** Writing an index: histories of calls. *)
From Verif Require Import Base Chunker FeatureFlags FeatureFlagsSpec FeatureFlagsProofs Index IndexSpec IndexRun IndexProofs IndexProofs2.
Local Open Scope N_scope.

Lemma image_entries_app off l l' : image_entries off (l ++ l') = image_entries off l ++ image_entries (off + blob_size_of l) l'.
Proof.
  revert off. induction l as [|[id sz] l IH]; intros off; cbn [app image_entries blob_size_of fold_right snd].
  - rewrite N.add_0_r. reflexivity.
  - fold (blob_size_of l). rewrite IH, <- !app_assoc. do 4 f_equal. lia.
Qed.
Lemma blob_size_app l l' : blob_size_of (l ++ l') = blob_size_of l + blob_size_of l'.
Proof. induction l as [|[id sz] l IH]; cbn [app blob_size_of fold_right snd]; [reflexivity|]. fold (blob_size_of (l ++ l')) (blob_size_of l). lia. Qed.

(** Only install touches what is at the path. *)
Lemma bind_final {A B} (m : op A) (f : A -> op B) : (forall s, x_final (snd (m s)) = x_final s) -> (forall a s, x_final (snd (f a s)) = x_final s) ->
  forall s, x_final (snd (bindM m f s)) = x_final s.
Proof. intros H1 H2 s. unfold bindM. specialize (H1 s). destruct (m s) as [[a| | |] s1]; cbn [snd] in *; rewrite <- H1; auto. Qed.
Lemma final_open : forall s, x_final (snd (index_open s)) = x_final s.
Proof.
  apply bind_final; [|intros _; apply bind_final; [|intros _]].
  - intros s. unfold index_open_fd. rewrite bind_get. destruct (x_open s); [reflexivity|]. destruct (is_mode_read (x_mode s)).
    + destruct (x_final s) eqn:E; [|exact E]. destruct s; cbn in *; exact E.
    + destruct s; reflexivity.
  - intros s. enough (X : x_final (snd (index_read_head s)) = x_final s) by (destruct (index_read_head s) as [[|[]| |] s']; exact X).
    unfold index_read_head. rewrite bind_get. destruct (negb (is_read_mode (x_mode s))); [reflexivity|]. destruct (negb (x_start s =? 0)); [reflexivity|].
    destruct (negb (x_cooked s =? 0)); [reflexivity|]. revert s. apply bind_final; [|intros r].
    + intros s. unfold index_enough_data. rewrite bind_get. repeat match goal with |- context [if ?c then _ else _] => destruct c end; reflexivity.
    + destruct r; cbn [negb]; [|reflexivity]. apply bind_final; [intros s; destruct s; reflexivity|intros h].
      apply bind_final; [intros s; destruct (_ =? _); reflexivity|intros _].
      apply bind_final; [intros s; destruct (_ && _); reflexivity|intros _].
      destruct (feature_flags_are_normalized _) as [[|]| | |]; try reflexivity.
      do 5 (apply bind_final; [intros s; match goal with |- context [if ?c then _ else _] => destruct c end; reflexivity|intros _]).
      intros s; destruct s; reflexivity.
  - intros s. unfold index_write_head. rewrite bind_get. destruct (negb (is_write_mode (x_mode s))); [reflexivity|]. destruct (negb (x_start s =? 0)); [reflexivity|].
    rewrite !bind_guard. destruct (negb (x_flags s =? UINT64_MAX)); [|reflexivity].
    destruct (negb ((x_min s =? 0) || (x_avg s =? 0) || (x_max s =? 0))); [|reflexivity]. destruct ((x_min s <=? x_avg s) && (x_avg s <=? x_max s)); [|reflexivity].
    destruct (negb (x_cooked s =? 0)); [reflexivity|]. unfold bindM, loop_write. destruct s; cbn. destruct (_ <=? _); reflexivity.
Qed.
Lemma final_loop_write d s : x_final (snd (loop_write d s)) = x_final s.
Proof. unfold loop_write. destruct (_ <=? _); destruct s; reflexivity. Qed.
Lemma final_guard c e s : x_final (snd ((if c : bool then ret tt else fail e) s)) = x_final s.
Proof. destruct c; reflexivity. Qed.
Lemma final_get s : x_final (snd (getS s)) = x_final s. Proof. reflexivity. Qed.
Lemma final_set w v s : x_final (snd (index_set_chunk_size w v s)) = x_final s.
Proof.
  unfold index_set_chunk_size. apply bind_final; [apply final_get|intros s0]. do 3 (apply bind_final; [apply final_guard|intros []]).
  intros x. destruct x; destruct w as [|[| |]]; reflexivity.
Qed.
Lemma wstep_final o s : o <> WInstall -> x_final (snd (wstep o s)) = x_final s.
Proof.
  intros Ho. destruct o as [f|v|v|v|id sz| | | |n]; try congruence; cbn [wstep]; unfold discard; apply bind_final; try (intros; reflexivity).
  - intros x. unfold index_set_feature_flags. apply bind_final; [apply final_get|intros s0]. do 2 (apply bind_final; [apply final_guard|intros []]).
    intros y. destruct (feature_flags_normalize f); try reflexivity. destruct y; reflexivity.
  - apply final_set.
  - apply final_set.
  - apply final_set.
  - intros x. unfold index_write_chunk. apply bind_final; [apply final_get|intros s0]. do 3 (apply bind_final; [apply final_guard|intros []]).
    apply bind_final; [apply final_open|intros []]. apply bind_final; [apply final_get|intros s1]. do 2 (apply bind_final; [apply final_guard|intros []]).
    apply bind_final; [apply final_loop_write|intros []]. intros y; destruct y; reflexivity.
  - intros x. unfold index_write_eof. apply bind_final; [apply final_get|intros s0]. do 2 (apply bind_final; [apply final_guard|intros []]).
    apply bind_final; [apply final_open|intros []]. apply bind_final; [apply final_get|intros s1].
    apply bind_final; [apply final_loop_write|intros []]. intros y; destruct y; reflexivity.
  - intros x. unfold index_incremental_read. apply bind_final; [apply final_get|intros s0]. apply bind_final; [apply final_guard|intros []].
    apply bind_final; [apply final_open|intros []]. apply bind_final; [apply final_get|intros s1].
    destruct (x_cooked s1 <=? x_raw s1); [destruct (x_eof s1); reflexivity|]. intros y; destruct y; reflexivity.
  - intros x. destruct x; reflexivity.
Qed.

(** * The state of a writer *)
Record ghost := Ghost { g_hdr : option (N * N * N * N); g_chunks : list (list N * N); g_eof : bool; g_inst : bool; g_out : list N }.
Definition img (g : ghost) : list N :=
  match g_hdr g with
  | None => []
  | Some (f, mi, av, ma) => head_bytes f mi av ma ++ image_entries 0 (g_chunks g) ++ (if g_eof g then tail_of (16 + 40 * (len (g_chunks g) + 1)) else [])
  end.
Definition limits (v : N) : Prop := v = 0 \/ 1 <= v <= 134217728.
Definition chunk_lim (c : list N * N) : Prop := length (fst c) = 32%nat /\ bytes_ok (fst c) = true /\ 0 < snd c <= 134217728.
Record winv (fin0 : option (list N)) (g : ghost) (s : idx) : Prop := {
  v_mode : is_write_mode (x_mode s) = true;
  v_flags : feature_flags_are_normalized (x_flags s) = Ok true;
  v_min : limits (x_min s); v_avg : limits (x_avg s); v_max : limits (x_max s);
  v_final : x_final s = if g_inst g then Some (img g) else fin0;
  v_data : x_data s = img g;
  v_fpos : x_fpos s = len (img g);
  v_cooked : x_cooked s = len (img g);
  v_start : x_start s = match g_hdr g with Some _ => 64 | None => 0 end;
  v_eof : x_eof s = g_eof g;
  v_open : g_hdr g <> None -> x_open s = true;
  v_temp : x_temp s = x_open s && negb (g_inst g);
  v_eof_hdr : g_eof g = true -> g_hdr g <> None;
  v_inst_eof : g_inst g = true -> g_eof g = true;
  v_nohdr : g_hdr g = None -> g_chunks g = [];
  v_hdr : forall f mi av ma, g_hdr g = Some (f, mi, av, ma) -> params_ok f mi av ma;
  v_chunks : Forall chunk_lim (g_chunks g);
  v_item : x_item s = len (g_chunks g);
  v_prev : x_prev s = blob_size_of (g_chunks g);
  v_blob : blob_size_of (g_chunks g) < two64;
  v_out : exists rest, img g = g_out g ++ rest;
  v_raw : x_raw s = len (g_out g)
}.

Lemma winv_new m fin lim : is_write_mode m = true -> winv fin (Ghost None [] false false []) (index_new m fin lim).
Proof.
  intros Hm. constructor; cbn; try assumption; try reflexivity; try discriminate; try congruence; try (left; reflexivity); auto.
  - destruct m; try discriminate; reflexivity.
  - exists []. reflexivity.
Qed.

Lemma entries_len l : Forall chunk_lim l -> len (image_entries 0 l) = 40 * len l.
Proof. intros H. apply image_entries_len. eapply Forall_impl; [|exact H]. intros c (H1 & _). exact H1. Qed.

Lemma loop_write_ok d s : x_fpos s = len (x_data s) -> len (x_data s) + len d <= x_limit s ->
  loop_write d s = (Ok tt, upd_file (x_data s ++ d) (len (x_data s) + len d) s).
Proof.
  intros Hf Hl. unfold loop_write. rewrite Hf. destruct (N.leb_spec (len d) (x_limit s - len (x_data s))); [|lia].
  rewrite takeN_all by lia. rewrite file_pwrite_end. reflexivity.
Qed.
Lemma loop_write_cases d s : x_fpos s = len (x_data s) ->
  fst (loop_write d s) = Err ENOSPC /\ x_limit s < len (x_data s) + len d \/ loop_write d s = (Ok tt, upd_file (x_data s ++ d) (len (x_data s) + len d) s).
Proof.
  intros Hf. destruct (N.leb_spec (len (x_data s) + len d) (x_limit s)) as [L|L]; [right; apply loop_write_ok; assumption|].
  destruct (N.eq_dec (len d) 0) as [Z|Z].
  - right. apply len_zero_nil in Z. subst d. unfold loop_write. rewrite Hf. cbn [len length N.of_nat]. change (len []) with 0.
    unfold takeN. rewrite firstn_nil. rewrite file_pwrite_end. change (len []) with 0. destruct (N.leb_spec 0 (x_limit s - len (x_data s))); [reflexivity|lia].
  - left. split; [|exact L]. unfold loop_write. rewrite Hf. destruct (N.leb_spec (len d) (x_limit s - len (x_data s))); [lia|]. reflexivity.
Qed.

Definition same_but_hdr (g g' : ghost) : Prop :=
  g_chunks g' = g_chunks g /\ g_eof g' = g_eof g /\ g_inst g' = g_inst g /\ g_out g' = g_out g /\ (g_hdr g <> None -> g' = g).

(** ca_index_open: either out of space, or fine, possibly with a header, or refused without one. *)
Definition sizes_set (s : idx) : bool :=
  negb ((x_min s =? 0) || (x_avg s =? 0) || (x_max s =? 0)) && (x_min s <=? x_avg s) && (x_avg s <=? x_max s).

Lemma open_winv fin0 g s : winv fin0 g s ->
  let r := index_open s in
  (fst r = Err ENOSPC /\ x_limit s < 64) \/
  (sizes_set s = false /\ g_hdr g = None /\ exists e, fst r = Err e /\ e <> ENOSPC /\ winv fin0 g (snd r)) \/
  (fst r = Ok tt /\ x_limit (snd r) = x_limit s /\ x_max (snd r) = x_max s /\ x_mode (snd r) = x_mode s /\
   exists g', winv fin0 g' (snd r) /\ same_but_hdr g g' /\ g_hdr g' <> None /\
     (g_hdr g = None -> g_hdr g' = Some (x_flags s, x_min s, x_avg s, x_max s) /\ sizes_set s = true)).
Proof.
  intros W. cbv zeta. destruct (g_hdr g) as [hd|] eqn:Hh.
  { right. right. rewrite open_noop; [|apply (v_open _ _ _ W); rewrite Hh; discriminate|rewrite (v_start _ _ _ W), Hh; discriminate].
    cbn [fst snd]. repeat (split; [reflexivity|]). exists g. split; [exact W|]. split; [repeat split|]. rewrite Hh. split; [discriminate|discriminate]. }
  assert (He : g_eof g = false) by (destruct (g_eof g) eqn:E; [exfalso; exact (v_eof_hdr _ _ _ W E Hh)|reflexivity]).
  assert (Hi : g_inst g = false) by (destruct (g_inst g) eqn:E; [exfalso; rewrite (v_inst_eof _ _ _ W E) in He; discriminate|reflexivity]).
  assert (Hc : g_chunks g = []) by (apply (v_nohdr _ _ _ W), Hh).
  assert (Hd : img g = []) by (unfold img; rewrite Hh; reflexivity).
  assert (Ho : g_out g = []) by (destruct (v_out _ _ _ W) as [rest E]; rewrite Hd in E; destruct (g_out g); [reflexivity|discriminate]).
  set (s1 := upd_open true true s).
  assert (W1 : winv fin0 g s1).
  { unfold s1. destruct W. destruct s; cbn in *. constructor; cbn; auto. rewrite Hi. reflexivity. }
  assert (O : index_open_fd s = (Ok tt, s1)).
  { unfold index_open_fd. rewrite bind_get. pose proof (v_temp _ _ _ W) as T. pose proof (v_mode _ _ _ W) as M. pose proof (v_data _ _ _ W) as D. pose proof (v_fpos _ _ _ W) as F.
    rewrite Hd in D, F. rewrite Hi in T. unfold s1. destruct s as [m f a b c d e gg h i j k l n o p q r]. cbn in T, M, D, F |- *. subst.
    destruct l; [reflexivity|]. destruct m; try discriminate; reflexivity. }
  pose proof (v_mode _ _ _ W1) as M1.
  assert (R : index_read_head s1 = (Ok tt, s1)).
  { unfold index_read_head. rewrite bind_get. destruct (x_mode s1); try discriminate; reflexivity. }
  assert (OH : index_open s = index_write_head s1).
  { unfold index_open. rewrite (bind_ok _ _ _ _ _ O). unfold bindM. rewrite R. reflexivity. }
  rewrite OH. unfold index_write_head. rewrite bind_get, M1, (v_start _ _ _ W1), Hh. cbn [negb]. rewrite N.eqb_refl. cbn [negb]. rewrite !bind_guard.
  pose proof (v_flags _ _ _ W1) as F1. pose proof (normalized_known _ _ F1) as [_ F2].
  destruct (N.eqb_spec (x_flags s1) UINT64_MAX) as [|_]; [contradiction|]. cbn [negb].
  assert (P : x_flags s1 = x_flags s /\ x_min s1 = x_min s /\ x_avg s1 = x_avg s /\ x_max s1 = x_max s /\ x_limit s1 = x_limit s /\ x_mode s1 = x_mode s) by (unfold s1; destruct s; repeat split).
  destruct P as (P1 & P2 & P3 & P4 & P5 & P6). assert (P7 : x_open s1 = true) by (unfold s1; destruct s; reflexivity). unfold sizes_set. rewrite P1, P2, P3, P4.
  destruct ((x_min s =? 0) || (x_avg s =? 0) || (x_max s =? 0)) eqn:E1; cbn [negb andb].
  { right. left. split; [reflexivity|]. split; [reflexivity|]. exists EUNATCH. split; [reflexivity|]. split; [discriminate|exact W1]. }
  destruct ((x_min s <=? x_avg s) && (x_avg s <=? x_max s)) eqn:E2.
  2: { right. left. split; [reflexivity|]. split; [reflexivity|]. exists EINVAL. split; [reflexivity|]. split; [discriminate|exact W1]. }
  rewrite (v_cooked _ _ _ W1), Hd. cbn [negb]. change (len []) with 0. rewrite N.eqb_refl. cbn [negb].
  pose proof (v_data _ _ _ W1) as D1. pose proof (v_fpos _ _ _ W1) as Fp1. rewrite Hd in D1, Fp1. 
  destruct (loop_write_cases (head_bytes (x_flags s) (x_min s) (x_avg s) (x_max s)) s1) as [[L Lim]|L]; [rewrite D1, Fp1; reflexivity| |].
  { left. unfold bindM. destruct (loop_write _ s1) as [r0 s0]. cbn [fst] in L. subst r0. split; [reflexivity|]. rewrite D1, head_bytes_len, P5 in Lim. exact Lim. }
  right. right. rewrite (bind_ok _ _ _ _ _ L). rewrite D1, head_bytes_len. cbn [app]. change (len []) with 0. rewrite N.add_0_l.
  unfold modS. cbn [fst snd]. split; [reflexivity|].
  set (s2 := upd_offs 64 64 _).
  assert (Q : x_limit s2 = x_limit s /\ x_max s2 = x_max s /\ x_mode s2 = x_mode s) by (rewrite <- P5, <- P4, <- P6; unfold s2; destruct s1; repeat split).
  destruct Q as (Q1 & Q2 & Q3). split; [exact Q1|]. split; [exact Q2|]. split; [exact Q3|].
  exists (Ghost (Some (x_flags s, x_min s, x_avg s, x_max s)) (g_chunks g) (g_eof g) (g_inst g) (g_out g)).
  split; [|split; [repeat split; congruence|split; [discriminate|intros _; split; [reflexivity|exact E2 || reflexivity]]]].
  assert (I : img (Ghost (Some (x_flags s, x_min s, x_avg s, x_max s)) (g_chunks g) (g_eof g) (g_inst g) (g_out g)) = head_bytes (x_flags s) (x_min s) (x_avg s) (x_max s)).
  { unfold img. cbn [g_hdr g_chunks g_eof]. rewrite Hc, He. cbn [image_entries app]. apply app_nil_r. }
  destruct W1 as [V1 V2 V3 V4 V5 V6 V7 V8 V9 V10 V11 V12 V13 V14 V15 V16 V17 V18 V19 V20 V21 V22 V23]. unfold s2.
  destruct s1 as [m f a b c d e gg h i j k l n o p q r]. cbn in V1, V2, V3, V4, V5, V6, V7, V8, V9, V10, V11, V12, V13, V19, V20, V23, P1, P2, P3, P4, P7. subst f a b c.
  constructor; cbn -[img len]; rewrite ?I; try assumption; try reflexivity; try discriminate.
  - rewrite Hi in *. exact V6.
  - intros _. exact P7.
  - intros f mi av ma E. inversion E; subst. unfold params_ok. unfold limits in *. repeat split; try assumption; lia.
  - rewrite Ho. exists (head_bytes (x_flags s) (x_min s) (x_avg s) (x_max s)). reflexivity.
Qed.
