(** The cache: names, texts, items. *)
From Verif Require Import Base Locator ChunkId ChunkIdProofs Posix PosixProofs ChunkFile Number NumberProofs Location LocationSpec LocationProofs1 LocationProofs2 LocationHeap LocationHeapProofs Origin OriginSpec OriginProofs1 OriginProofs2 OriginProofs3 StoreProofs4 Cache CacheSpec.
Local Open Scope N_scope.
Local Opaque BUFFER_SIZE.

Lemma cache_path_name root key : cache_path root key = entry_name root key.
Proof. reflexivity. Qed.

Section Names.
Context (root : list N).
Definition final (q : list N) : Prop := exists key, id_ok key = true /\ q = entry_name root key.
Definition temp (q : list N) : Prop := exists key u, id_ok key = true /\ q = temp_path (entry_name root key) u.

Lemma entry_parts key : entry_name root key = (root ++ 47 :: firstn 4 (chunk_id_format key)) ++ 47 :: (chunk_id_format key ++ [46; 99; 97; 99; 104; 105]).
Proof. unfold entry_name. rewrite <- app_assoc. reflexivity. Qed.

Lemma entry_tail_no_slash key : no_slash (chunk_id_format key ++ [46; 99; 97; 99; 104; 105]).
Proof. apply no_slash_app; [apply format_no_slash|]. apply no_slash_lit. reflexivity. Qed.
Lemma dirname_entry key : dirname (entry_name root key) = root ++ 47 :: firstn 4 (chunk_id_format key).
Proof. rewrite entry_parts. apply dirname_app. apply entry_tail_no_slash. Qed.
Lemma until_slash_app a b : no_slash b -> until_slash (b ++ 47 :: a) = b.
Proof.
  intros H. induction b as [|c b IH]; [reflexivity|]. cbn [app until_slash]. destruct (N.eqb_spec c 47) as [->|]; [destruct H; left; reflexivity|].
  rewrite IH; [reflexivity|]. intros Hin. apply H. right. exact Hin.
Qed.
Lemma basename_app a b : no_slash b -> basename (a ++ 47 :: b) = b.
Proof.
  intros H. unfold basename. rewrite rev_app_distr. cbn [rev]. rewrite <- app_assoc. cbn [app]. rewrite until_slash_app; [apply rev_involutive|].
  intros Hin. apply H. apply in_rev. exact Hin.
Qed.
Lemma basename_entry key : basename (entry_name root key) = chunk_id_format key ++ [46; 99; 97; 99; 104; 105].
Proof. rewrite entry_parts. apply basename_app. apply entry_tail_no_slash. Qed.
Lemma len_format id : id_ok id = true -> len (chunk_id_format id) = 64.
Proof. intros H. apply id_ok_format in H. unfold len. rewrite H. reflexivity. Qed.
Lemma four_name key : id_ok key = true -> cache_four root key = root ++ 47 :: firstn 4 (chunk_id_format key).
Proof.
  intros H. unfold cache_four, in_cache, chunk_id_format_path. f_equal. f_equal. cbn [app].
  apply takeN_app_exact. apply id_ok_format in H. unfold len. rewrite firstn_length, H. reflexivity.
Qed.
Lemma entry_len key : id_ok key = true -> len (entry_name root key) = len root + 76.
Proof.
  intros H. rewrite entry_parts. rewrite !len_app, !len_cons, len_app, (len_format key H).
  assert (len (firstn 4 (chunk_id_format key)) = 4) as ->. { apply id_ok_format in H. unfold len. rewrite firstn_length, H. reflexivity. }
  change (len [46; 99; 97; 99; 104; 105]) with 6. lia.
Qed.
Lemma four_not_final key : id_ok key = true -> ~ final (cache_four root key).
Proof.
  intros H (key' & H' & E). apply (f_equal (@len N)) in E. rewrite entry_len in E by exact H'. rewrite (four_name key H), len_app, len_cons in E.
  assert (len (firstn 4 (chunk_id_format key)) = 4) as X. { apply id_ok_format in H. unfold len. rewrite firstn_length, H. reflexivity. } lia.
Qed.
Lemma root_not_final : ~ final root.
Proof. intros (key' & H' & E). apply (f_equal (@len N)) in E. rewrite entry_len in E by exact H'. lia. Qed.

Lemma nibbles_no_slash n : forall u, no_slash (nibbles n u).
Proof. induction n as [|n IH]; intros u; cbn [nibbles]; [intros []|]. intros [E|E]; [exact (encode_no_slash _ E)|exact (IH _ E)]. Qed.

Lemma temp_parts key u : temp_path (entry_name root key) u = dirname (entry_name root key) ++ 47 :: (46 :: 35 :: basename (entry_name root key) ++ nibbles 16 u).
Proof. reflexivity. Qed.
Lemma temp_tail_no_slash key u : no_slash (46 :: 35 :: basename (entry_name root key) ++ nibbles 16 u).
Proof.
  rewrite basename_entry. intros [E|[E|E]]; [discriminate|discriminate|]. revert E. apply no_slash_app; [apply entry_tail_no_slash|apply nibbles_no_slash].
Qed.
Lemma encode_not_dot x : encode_char x <> 46.
Proof. unfold encode_char. destruct (N.land x 15 <? 10) eqn:E; [apply N.ltb_lt in E|apply N.ltb_ge in E]; lia. Qed.

Lemma temp_not_final q : temp q -> ~ final q.
Proof.
  intros (key & u & Hk & ->) (key' & Hk' & E). apply (f_equal basename) in E. rewrite temp_parts, basename_app in E by apply temp_tail_no_slash.
  rewrite (basename_entry key') in E. apply id_ok_format in Hk'. destruct key' as [|b key']; [discriminate|]. rewrite format_cons in E. cbn [app] in E.
  apply (f_equal (hd 0)) in E. cbn [hd] in E. symmetry in E. exact (encode_not_dot _ E).
Qed.
End Names.

(** ** Texts *)
Lemma format_seven l : format l = location_format l 7. Proof. reflexivity. Qed.

Lemma format_no_nul l w : proper l -> ~ In 0 (path_text (path l)) -> ~ In 0 (location_format l w) \/ has w WITH_NAME_TABLE = true.
Proof.
  intros P Hp. destruct (has w WITH_NAME_TABLE) eqn:Et; [right; reflexivity|left]. unfold location_format. change strempty with path_text. rewrite Et.
  assert (D : forall n, ~ In 0 (dec n)) by (intros n; apply dec_not_in; reflexivity).
  assert (X : forall n, ~ In 0 (Number.hex n)) by (intros n; apply hex_not_in; reflexivity).
  assert (K : designator l <> 0) by (destruct (p_kind _ P) as [E|[E|[E|[E|E]]]]; rewrite E; discriminate).
  assert (A : forall a b : list N, ~ In 0 a -> ~ In 0 b -> ~ In 0 (a ++ b)) by (intros a b H1 H2 H; apply in_app_or in H; tauto).
  assert (C : forall c (b : list N), c <> 0 -> ~ In 0 b -> ~ In 0 (c :: b)) by (intros c b H1 H2 [H|H]; auto).
  assert (Z : ~ In 0 (@nil N)) by (intros []).
  assert (I : forall (b : bool) (x y : list N), ~ In 0 x -> ~ In 0 y -> ~ In 0 (if b then x else y)) by (intros [] x y; auto).
  apply A; [exact Hp|]. apply C; [discriminate|]. apply C; [exact K|]. apply A; [apply D|]. apply A; [apply I; [apply C; [discriminate|apply D]|exact Z]|].
  apply A; [apply I; [apply C; [discriminate|]; apply A; [apply D|]; apply C; [discriminate|]; apply A; [apply D|]; apply I; [apply C; [discriminate|apply D]|exact Z]|exact Z]|].
  apply A; [apply I; [apply C; [discriminate|apply X]|exact Z]|]. apply A; [apply I; [apply C; [discriminate|apply D]|exact Z]|].
  destruct (name_table l); exact Z.
Qed.

Lemma format_nul l : proper l -> ~ In 0 (path_text (path l)) -> ~ In 0 (location_format l 7).
Proof. intros P H. destruct (format_no_nul l 7 P H) as [X|X]; [exact X|discriminate]. Qed.

Definition texts (ls : list loc) : list N := concat (map (fun l => location_format l 7 ++ [0]) ls).

Lemma cut_is_none c s : cut c s = None -> ~ In c s.
Proof.
  induction s as [|d s IH]; cbn [cut]; [intros _ []|]. destruct (N.eqb_spec d c); [discriminate|]. destruct (cut c s) as [[a b]|]; [discriminate|].
  intros _ [H|H]; [congruence|]. exact (IH eq_refl H).
Qed.

Lemma cut_unique (c : N) a b a' b' : ~ In c a -> ~ In c a' -> a ++ c :: b = a' ++ c :: b' -> a = a' /\ b = b'.
Proof.
  intros H H' E. pose proof (cut_here c a b H) as X. rewrite E, cut_here in X by exact H'. injection X as -> ->. auto.
Qed.

Definition sound_loc (l : loc) : Prop := proper l /\ typed l /\ size l < UINT64_MAX /\ ~ In 0 (path_text (path l)).

(** The next text in the buffer is that of the next location. *)
Lemma next_text buf more todo t rest : Forall sound_loc todo -> buf ++ more = texts todo -> cut 0 buf = Some (t, rest) ->
  exists l todo', todo = l :: todo' /\ t = location_format l 7 /\ rest ++ more = texts todo'.
Proof.
  intros F E C. apply cut_inv in C. destruct C as [-> Hn]. destruct todo as [|l todo']; [destruct t; discriminate|]. inversion F as [|? ? (P & _ & _ & Hp) F']; subst.
  exists l, todo'. split; [reflexivity|]. unfold texts in E. cbn [map concat] in E. rewrite <- !app_assoc in E. cbn [app] in E.
  apply cut_unique in E; [exact E|exact Hn|]. apply format_nul; assumption.
Qed.
Lemma no_text buf todo : buf = texts todo -> cut 0 buf = None -> todo = [] /\ buf = [].
Proof.
  intros -> C. apply cut_is_none in C. destruct todo as [|l todo]; [auto|]. exfalso. apply C. unfold texts. cbn [map concat]. apply in_or_app. left. apply in_or_app. right. left. reflexivity.
Qed.

(** ** Items *)
Lemma kept_sized l : proper l -> size l < UINT64_MAX -> sized (kept 7 l).
Proof. intros [P1 P2 P3 P4 P5] H. split; [|exact H]. constructor; assumption. Qed.
Lemma kept_sources l : sources (kept 7 l) = sources (rerooted None l).
Proof.
  unfold sources. cbn [kept rerooted designator size offset]. change (asks_size 7) with true. cbn iota.
  destruct (designator l =? 118); [reflexivity|]. f_equal. f_equal. unfold object_of, kept, rerooted. cbn [root path designator mtime inode generation_valid generation].
  change (asks_stamp 7) with true. cbn [andb]. destruct (N.eqb_spec (mtime l) UINT64_MAX) as [E|E]; cbn [negb].
  - rewrite N.eqb_refl. reflexivity.
  - apply N.eqb_neq in E. rewrite E. destruct (generation_valid l); reflexivity.
Qed.
Lemma agree_size s a b : agree 6 a (set_size s b) -> agree 6 a b.
Proof. unfold agree. cbn [set_size designator path offset size mtime inode generation_valid generation feature_flags name_table]. change (asks_size 6) with false. intuition discriminate. Qed.
Lemma agree_kept a b : agree 6 a (kept 7 b) -> agree 6 a b.
Proof.
  unfold agree, kept. cbn [designator path offset size mtime inode generation_valid generation feature_flags name_table].
  change (asks_size 6) with false. change (asks_stamp 6) with true. change (asks_features 6) with true. change (asks_table 6) with false.
  change (asks_stamp 7) with true. change (asks_features 7) with true. cbn [andb]. destruct (N.eqb_spec (mtime b) UINT64_MAX) as [E|E]; cbn [negb andb].
  - intros (H1 & H2 & H3 & _ & H5 & H6 & _). repeat (split; [assumption|]). split; [discriminate|]. split; [|split; [intros _; apply H6; reflexivity|discriminate]].
    intros _. destruct (H5 eq_refl) as [H7 H8]. split; [congruence|]. intros X. congruence.
  - intros (H1 & H2 & H3 & _ & H5 & H6 & _). repeat (split; [assumption|]). split; [discriminate|]. split; [|split; [intros _; apply H6; reflexivity|discriminate]].
    intros _. destruct (H5 eq_refl) as [H7 H8]. split; [congruence|]. intros X. destruct (H8 X) as (A & B & C). split; [exact A|]. split; [exact B|]. intros V. rewrite (C V).
    rewrite <- B, V. reflexivity.
Qed.

(** What the origin built so far has to do with the items read so far. *)
Definition built (h : heap) (hs : list ptr) (o : origin) (done : list loc) : Prop :=
  held h (items o ++ hs) /\ exists ls, has_locs h o ls /\ all_sources ls = all_sources (map (rerooted None) done) /\
    match done with [] => ls = [] | first :: _ => exists s, hd_error ls = Some (set_size s (kept 7 first)) end.

Lemma len_all ls : len (all_sources (map (rerooted None) ls)) = len (all_sources ls).
Proof. induction ls as [|l ls IH]; [reflexivity|]. cbn [map]. rewrite !all_sources_cons, !len_app, IH, !sources_len. reflexivity. Qed.

Lemma get_item_ok h hs o done l todo : built h hs o done -> sound_loc l -> len (all_sources (done ++ l :: todo)) < UINT64_MAX ->
  exists r o' h', get_item (location_format l 7) o h = Some ((r, o'), h') /\ keeps hs h h' /\ (r = Ok 0 /\ built h' hs o' (done ++ [l]) \/ r = Err EINVAL /\ held h' (items o' ++ hs) /\ mtime l = UINT64_MAX).
Proof.
  intros (Hh & ls & HL & Es & Hd) (P & T & S & _) Hsz. unfold get_item. rewrite location_round_trip by assumption.
  assert (HL' : held h hs \/ True) by auto. clear HL'.
  destruct (alloc_ok h _ (kept 7 l) Hh) as (Ea & Ha & Sa & _ & Ks). unfold mbind at 1. rewrite Ea. cbv iota beta.
  change (size (kept 7 l)) with (size l). destruct (N.eqb_spec (size l) UINT64_MAX); [lia|].
  set (h1 := h ++ [mkObj 1 (kept 7 l) None]) in *. set (q := length h) in *.
  assert (K1 : keeps hs h h1) by (intros p a _ X; apply Ks; exact X).
  assert (Em : mtime (kept 7 l) = mtime l). { cbn. destruct (N.eqb_spec (mtime l) UINT64_MAX); cbn; congruence. }
  rewrite Em. destruct (N.eqb_spec (mtime l) UINT64_MAX) as [Hm|Hm].
  - destruct (unref_ok h1 (items o ++ hs) q) as (h2 & E2 & H2 & S2); [exact Ha|]. unfold mbind. rewrite E2. exists (Err EINVAL), o, h2. split; [reflexivity|].
    split; [|right; auto]. intros p a I X. apply S2. apply K1; assumption.
  - assert (H1 : held h1 (items o ++ q :: hs)) by (eapply held_perm; [|exact Ha]; apply Permutation.Permutation_middle).
    assert (HL1 : has_locs h1 o ls). { eapply has_keeps; [|exact HL]. intros p a _ X. apply Ks. exact X. }
    destruct (put_ok_first h1 (q :: hs) o q ls (kept 7 l) H1 HL1 (or_introl eq_refl) Sa) as (o' & h2 & ls' & E2 & H2 & HL2 & Es2 & K2 & s & Hs2).
    + apply kept_sized; assumption.
    + change (size (kept 7 l)) with (size l). rewrite Es, len_all. rewrite all_sources_app, all_sources_cons, !len_app, sources_len in Hsz. lia.
    + unfold mbind at 1. rewrite E2. destruct (unref_ok h2 (items o' ++ hs) q) as (h3 & E3 & H3 & S3).
      { eapply held_perm; [|exact H2]. apply Permutation.Permutation_sym, Permutation.Permutation_middle. }
      unfold mbind at 1. rewrite E3. exists (Ok 0), o', h3. split; [reflexivity|]. split.
      { intros p a I X. apply S3. apply K2; [right; exact I|]. apply K1; assumption. }
      left. split; [reflexivity|]. split; [exact H3|]. exists ls'. split; [|split].
      * eapply has_keeps; [|exact HL2]. intros p a _ X. apply S3. exact X.
      * rewrite Es2, Es, map_app, all_sources_app. cbn [map]. rewrite all_sources_cons. change (all_sources []) with (@nil source). rewrite app_nil_r, kept_sources. reflexivity.
      * destruct done as [|first done]; cbn [app].
        -- subst ls. cbn [hd] in Hs2. exists s. exact Hs2.
        -- destruct Hd as [s0 Hd]. destruct ls as [|x ls]; [discriminate|]. injection Hd as ->. cbn [hd] in Hs2. exists s. rewrite Hs2. reflexivity.
Qed.
