(** The cache: every operation is safe. *)
From Verif Require Import Base Locator Properties_Locator ChunkId ChunkIdProofs Posix PosixProofs ChunkFile Location LocationSpec LocationProofs1 LocationProofs2 LocationHeap LocationHeapProofs Origin OriginSpec OriginProofs1 OriginProofs2 OriginProofs3 StoreProofs4 Cache CacheSpec CacheProofs1 SharedDir.
Local Open Scope N_scope.
Local Opaque BUFFER_SIZE.

Lemma dropN_len_takeN {A} n (x : list A) : dropN (len (takeN n x)) x = dropN n x.
Proof.
  rewrite <- (takeN_dropN n x) at 2. rewrite dropN_app_exact by reflexivity. reflexivity.
Qed.
Lemma read_on (buf c : list N) n pos : (buf ++ takeN n (dropN pos c)) ++ dropN (pos + len (takeN n (dropN pos c))) c = buf ++ dropN pos c.
Proof. rewrite <- app_assoc. f_equal. rewrite N.add_comm, <- dropN_dropN, dropN_len_takeN. apply takeN_dropN. Qed.
Lemma buffer_size_pos : 0 < BUFFER_SIZE. Proof. reflexivity. Qed.
Lemma read_end (c : list N) pos : takeN BUFFER_SIZE (dropN pos c) = [] -> dropN pos c = [].
Proof.
  intros E. apply len_zero_nil. apply (f_equal (@len N)) in E. rewrite len_takeN in E. change (@len N []) with 0 in E. pose proof buffer_size_pos. lia.
Qed.

Lemma cstring_no_nul s : ~ In 0 s -> cstring s = s.
Proof. intros H. unfold cstring. rewrite cut_none by exact H. reflexivity. Qed.

Lemma link_text l id : putable [l] id -> ~ In 0 (entry_link l id).
Proof.
  intros (_ & F & _ & Hi). inversion F as [|? ? (P & T & S & Hp) _]; subst. unfold entry_link. intros H. apply in_app_or in H. destruct H as [H|H].
  - clear -H. unfold chunk_id_format in H. apply in_flat_map in H. destruct H as (x & _ & [E|[E|[]]]); revert E; unfold encode_char;
      (destruct (_ <? 10) eqn:E1; [apply N.ltb_lt in E1|apply N.ltb_ge in E1]; lia).
  - destruct H as [H|H]; [discriminate|]. exact (format_nul _ P Hp H).
Qed.

Lemma putable_all ls id : putable ls id -> Forall sound_loc ls /\ len (all_sources ls) < UINT64_MAX /\ id_ok id = true.
Proof. intros (_ & F & H & Hi). auto. Qed.

Lemma texts_held h : texts_ok h -> exists hs, held h hs.
Proof.
  intros H. exists (flat_map (fun p => match nth_error h p with Some o => repeat p (N.to_nat (n_ref o)) | None => [] end) (seq 0 (length h))).
  intros p. assert (X : forall n s, cnt (flat_map (fun p => match nth_error h p with Some o => repeat p (N.to_nat (n_ref o)) | None => [] end) (seq s n)) p =
      if ((s <=? p) && (p <? s + n))%nat then match nth_error h p with Some o => N.to_nat (n_ref o) | None => O end else O).
  { induction n as [|n IH]; intros s; cbn [seq flat_map].
    - destruct (((s <=? p) && (p <? s + 0))%nat) eqn:E; [|reflexivity]. apply andb_prop in E. destruct E as [E1 E2]. apply Nat.leb_le in E1. apply Nat.ltb_lt in E2. lia.
    - unfold cnt in *. rewrite count_occ_app, IH.
      assert (Y : forall k, count_occ Nat.eq_dec (repeat s k) p = if (s =? p)%nat then k else O).
      { intros k. induction k as [|k IHk]; cbn; [destruct (s =? p)%nat; reflexivity|]. destruct (Nat.eq_dec s p) as [->|N]; rewrite IHk; [rewrite Nat.eqb_refl; reflexivity|]. apply Nat.eqb_neq in N. rewrite N. reflexivity. }
      assert (Z : count_occ Nat.eq_dec (match nth_error h s with Some o => repeat s (N.to_nat (n_ref o)) | None => [] end) p = if (s =? p)%nat then match nth_error h p with Some o => N.to_nat (n_ref o) | None => O end else O).
      { destruct (nth_error h s) as [x|] eqn:Ex; [rewrite Y|]; (destruct (Nat.eqb_spec s p) as [Esp|N]; [rewrite <- Esp, Ex; reflexivity|reflexivity]). }
      rewrite Z. destruct (Nat.eqb_spec s p), (Nat.leb_spec (S s) p), (Nat.leb_spec s p), (Nat.ltb_spec p (S s + n)), (Nat.ltb_spec p (s + S n)); cbn; lia. }
  rewrite X. destruct (nth_error h p) as [o|] eqn:E.
  - assert (p < length h)%nat by (apply nth_error_Some; congruence). destruct (Nat.leb_spec 0 p), (Nat.ltb_spec p (0 + length h)); try lia. cbn [andb]. split; [lia|].
    unfold coherent. destruct (formatted o) as [[t w]|] eqn:Ef; [|exact I]. eapply H; [eapply nth_error_In; exact E|exact Ef].
  - destruct (_ && _)%nat; reflexivity.
Qed.

Lemma held_texts h hs : held h hs -> texts_ok h.
Proof.
  intros H o t w Hin Ef. apply In_nth_error in Hin. destruct Hin as [p E]. specialize (H p). rewrite E in H. destruct H as [_ H]. unfold coherent in H. rewrite Ef in H. exact H.
Qed.

Lemma built_answer h hs o first rest : built h hs o (first :: rest) ->
  exists p items', items o = p :: items' /\ exists s, sees h p (set_size s (kept 7 first)) /\
  exists ls, map (value h) (items o) = map Some ls /\ concat (map sources ls) = concat (map (fun x => sources (rerooted None x)) (first :: rest)) /\ n_bytes o = len (concat (map sources ls)).
Proof.
  intros (Hh & ls & [HL Hz Hn Hsm] & Es & s & Hd). destruct ls as [|x ls]; [discriminate|]. injection Hd as ->. inversion HL as [|p ? items' ? Hp HL' E1 E2]; subst.
  exists p, items'. split; [reflexivity|]. exists s. split; [exact Hp|]. exists (set_size s (kept 7 first) :: ls). split; [|split].
  - assert (X : forall ps ls, (forall q, In q ps -> In q (items o ++ hs)) -> Forall2 (sees h) ps ls -> map (value h) ps = map Some ls).
    { clear -Hh. intros ps ls Hin F. induction F as [|q a ps ls Hq F IH]; [reflexivity|]. cbn [map]. rewrite IH by (intros; apply Hin; right; assumption). f_equal.
      destruct (held_in h _ q Hh (Hin q (or_introl eq_refl))) as (ob & Eo & Rn & _ & Hpos). destruct Hq as (ob' & Eo' & <-). rewrite Eo in Eo'. injection Eo' as <-. unfold value. rewrite Eo.
      destruct (N.eqb_spec (n_ref ob) 0) as [Hz|_]; [|reflexivity]. exfalso. assert (In q (items o ++ hs)) as Hi by (apply Hin; left; reflexivity).
      apply (count_occ_In Nat.eq_dec) in Hi. unfold cnt in Rn. lia. }
    rewrite ?E1. apply X; [|exact HL]. intros q Hq. apply in_or_app. left. exact Hq.
  - unfold all_sources in Es. rewrite map_map in Es. exact Es.
  - exact Hn.
Qed.

Section Safe.
Context (digest : list N -> list N) (genuine : list loc -> list N -> Prop) (root : list N).
Context (digest_ok : forall m, id_ok (digest m) = true).
Definition key_of (l : loc) : list N := digest (location_message l false).
Definition complete (q c : list N) : Prop :=
  exists first rest id, genuine (first :: rest) id /\ putable (first :: rest) id /\ q = entry_name root (key_of first) /\ c = entry_file (first :: rest) id.
Definition linkok (q t : list N) : Prop :=
  exists l id, genuine [l] id /\ putable [l] id /\ q = entry_name root (key_of l) /\ t = entry_link l id.
Notation final := (final root).
Notation temp := (temp root).
Notation safe := (safe final temp complete linkok).

Lemma complete_final q c : complete q c -> final q.
Proof. intros (first & rest & id & _ & _ & -> & _). exists (key_of first). split; [apply digest_ok|reflexivity]. Qed.
Lemma entry_final l : final (cache_path root (cache_key digest l)).
Proof. exists (key_of l). split; [apply digest_ok|reflexivity]. Qed.

(** What is still to be read, in the buffer and from the file. *)
Definition feeds (g : ghost) (fd : option nat) (buf : list N) (todo : list loc) : Prop :=
  match fd with
  | None => buf = texts todo
  | Some f => exists i c pos, g_rd g = Some (f, i, c, pos) /\ buf ++ dropN pos c = texts todo
  end.

Lemma readlink_malloc_safe p (Q : ghost -> res (list N) -> Prop) g : final p -> (forall t, linkok p t -> Q g (Ok t)) -> (forall e, Q g (Err e)) ->
  forall fuel l, safe Q g (readlink_malloc fuel p l).
Proof.
  intros Hf Ht He. induction fuel as [|fuel IH]; intros l; [exact I|]. cbn [readlink_malloc SharedDir.safe]. split; [exact He|]. split; [exact Hf|].
  intros t Hl. destruct (N.ltb_spec (len (takeN (l - 1) t)) (l - 1)) as [H|H]; [|apply IH]. cbn [SharedDir.safe].
  rewrite takeN_all; [apply Ht; exact Hl|]. rewrite len_takeN in H. lia.
Qed.

Lemma read_target_safe target fd i c (Q : ghost -> res (list N * bool) -> Prop) : (forall g e, Q g (Err e)) ->
  (forall g buf pos, g_rd g = Some (fd, i, c, pos) -> buf ++ dropN pos c = c -> (forall reached : bool, (reached = true -> target <= len buf) -> Q g (Ok (buf, reached)))) ->
  forall fuel g buf pos, g_rd g = Some (fd, i, c, pos) -> buf ++ dropN pos c = c -> safe Q g (read_target fuel fd buf target).
Proof.
  intros He Hk. induction fuel as [|fuel IH]; intros g buf pos Hr Hb; [exact I|]. cbn [read_target]. destruct (N.leb_spec target (len buf)) as [H|H].
  - cbn [SharedDir.safe]. eapply Hk; eauto.
  - apply safe_bind. unfold sys_read. cbn [SharedDir.safe]. split; [intros e; apply He|]. exists i, c, pos. split; [exact Hr|].
    pose proof (read_on buf c BUFFER_SIZE pos) as E. destruct (takeN BUFFER_SIZE (dropN pos c)) as [|b bs] eqn:Eb.
    + cbn [SharedDir.safe]. eapply Hk; [reflexivity| |discriminate]. rewrite app_nil_r in E. rewrite E. exact Hb.
    + eapply IH; [reflexivity|]. rewrite E. exact Hb.
Qed.


Definition head_ok (g : ghost) (r : res (list N * list N * option nat)) : Prop :=
  match r with
  | Ok (id, buf, fd) => exists first rest, genuine (first :: rest) id /\ putable (first :: rest) id /\ feeds g fd buf (first :: rest)
  | Err _ => True
  | Abort | UB => False
  end.

Lemma get_head_safe fuel p g : final p -> safe head_ok g (get_head fuel p).
Proof.
  intros Hf. unfold get_head. apply safe_bind. apply readlink_malloc_safe; [exact Hf| |].
  - intros t (l & id & Hg & Hp & _ & ->). cbv beta iota. pose proof (link_text l id Hp) as Hn. rewrite (cstring_no_nul _ Hn).
    assert (Hi : id_ok id = true) by apply Hp. pose proof (len_format id Hi) as Hl. unfold entry_link.
    assert (E : (chunk_id_format id ++ [58] ++ location_format l 7) ++ [0] = chunk_id_format id ++ 58 :: (location_format l 7 ++ [0])) by (rewrite <- !app_assoc; reflexivity).
    rewrite E. destruct (N.ltb_spec (len (chunk_id_format id ++ 58 :: (location_format l 7 ++ [0]))) 65) as [H|_].
    { rewrite len_app, Hl, len_cons in H. lia. }
    assert (A : at_ (chunk_id_format id ++ 58 :: (location_format l 7 ++ [0])) 64 = 58). { rewrite <- Hl. rewrite at_app. reflexivity. }
    rewrite A. cbn [negb N.eqb]. change (58 =? 58) with true. cbn [negb].
    rewrite takeN_app_exact by exact Hl. rewrite cstring_no_nul.
    2: { intros H. apply Hn. unfold entry_link. apply in_or_app. left. exact H. }
    rewrite parse_format by exact Hi. cbn [SharedDir.safe head_ok]. exists l, []. split; [exact Hg|]. split; [exact Hp|]. cbn [feeds].
    unfold texts. cbn [map concat]. rewrite app_nil_r. change (chunk_id_format id ++ 58 :: location_format l 7 ++ [0]) with (chunk_id_format id ++ [58] ++ location_format l 7 ++ [0]).
    rewrite app_assoc. apply dropN_app_exact. rewrite len_app, Hl. reflexivity.
  - intros e. cbv beta iota. destruct e; try exact I. cbn [SharedDir.safe]. split; [intros e; exact I|]. split; [exact Hf|].
    intros fd i c (first & rest & id & Hg & Hp & _ & ->). apply safe_bind. apply (read_target_safe 32 fd i (entry_file (first :: rest) id)) with (pos := 0); [intros; exact I| |reflexivity|reflexivity].
    intros g' buf pos Hr Hb reached Hre. cbv beta iota. destruct reached; [|exact I]. specialize (Hre eq_refl). cbn [SharedDir.safe head_ok].
    assert (Hi : id_ok id = true) by apply Hp. assert (Hl : len id = 32). { unfold id_ok in Hi. apply andb_prop in Hi. destruct Hi as [Hi _]. apply N.eqb_eq in Hi. exact Hi. }
    assert (E : takeN 32 buf ++ (dropN 32 buf ++ dropN pos (entry_file (first :: rest) id)) = id ++ texts (first :: rest)). { rewrite app_assoc, takeN_dropN, Hb. reflexivity. }
    apply app_inj_len in E; [|apply Nat2N.inj; change (len (takeN 32 buf) = len id); rewrite len_takeN, Hl; lia]. destruct E as [-> E]. exists first, rest. split; [exact Hg|]. split; [exact Hp|]. exists i, (entry_file (first :: rest) id), pos. auto.
Qed.

(** The result: an origin for all that was put. *)
Definition items_ok (ls : list loc) (hs : list ptr) (r : res origin * heap) : Prop :=
  match r with
  | (Ok o, h) => built h hs o ls
  | (Err _, h) => held h hs
  | _ => False
  end.

Lemma give_up_safe {A} hs o e h (Q : ghost -> res A * heap -> Prop) g : held h (items o ++ hs) -> (forall h', held h' hs -> Q g (Err e, h')) -> safe Q g (give_up o e h).
Proof. intros H HQ. unfold give_up. destruct (flush_ok h hs o H) as (h' & E & H' & _). rewrite E. cbn [SharedDir.safe]. apply HQ. exact H'. Qed.

Lemma get_items_safe hs fd : forall fuel g buf o h done todo, built h hs o done -> Forall sound_loc todo -> len (all_sources (done ++ todo)) < UINT64_MAX ->
  feeds g fd buf todo -> safe (fun _ => items_ok (done ++ todo) hs) g (get_items fuel fd buf o h).
Proof.
  induction fuel as [|fuel IH]; intros g buf o h done todo Hb Hs Hz Hf; [exact I|]. cbn [get_items].
  assert (Hh : held h (items o ++ hs)) by apply Hb.
  destruct (cut 0 buf) as [[t rest]|] eqn:Ec.
  - assert (exists l todo', todo = l :: todo' /\ t = location_format l 7 /\ feeds g fd rest todo') as (l & todo' & -> & -> & Hf').
    { destruct fd as [f|]; cbn [feeds] in *.
      - destruct Hf as (i & c & pos & Hr & E). destruct (next_text _ _ _ _ _ Hs E Ec) as (l & todo' & -> & -> & E'). exists l, todo'. split; [reflexivity|]. split; [reflexivity|]. exists i, c, pos. auto.
      - destruct (next_text buf [] todo t rest Hs) as (l & todo' & -> & -> & E'); [rewrite app_nil_r; exact Hf|exact Ec|]. exists l, todo'. rewrite app_nil_r in E'. auto. }
    inversion Hs as [|? ? Hl Hs']; subst. destruct (get_item_ok h hs o done l todo' Hb Hl Hz) as (r & o' & h' & E & _ & [[-> Hb']|(-> & Hh' & _)]); rewrite E.
    + replace (done ++ l :: todo') with ((done ++ [l]) ++ todo') in * by (rewrite <- app_assoc; reflexivity). apply IH; assumption.
    + apply (give_up_safe hs); [exact Hh'|]. intros h2 H2. exact H2.
  - assert (Stop : (fd <> None -> buf = texts todo) -> forall g, safe (fun _ => items_ok (done ++ todo) hs) g (match buf with [] => Ret (Ok o, h) | _ => give_up o EINVAL h end)).
    { intros Hx g'. assert (E : buf = texts todo) by (destruct fd; [apply Hx; discriminate|exact Hf]). destruct (no_text _ _ E Ec) as [-> ->]. cbn [SharedDir.safe items_ok]. rewrite app_nil_r. exact Hb. }
    destruct fd as [f|]; [|apply Stop; congruence]. cbn [SharedDir.safe]. split; [intros e; apply (give_up_safe hs); [exact Hh|intros h2 H2; exact H2]|].
    destruct Hf as (i & c & pos & Hr & E). exists i, c, pos. split; [exact Hr|]. pose proof (read_on buf c BUFFER_SIZE pos) as Er.
    destruct (takeN BUFFER_SIZE (dropN pos c)) as [|b bs] eqn:Eb.
    + apply Stop. intros _. apply read_end in Eb. rewrite Eb, app_nil_r in E. exact E.
    + apply IH; [exact Hb|exact Hs|exact Hz|]. cbn [feeds]. eexists _, _, _. split; [reflexivity|]. rewrite Er. exact E.
Qed.

Lemma cache_open_safe c (Q : ghost -> cache * res (list N) -> Prop) g : on_root root c ->
  (forall e, Q g (c, Err e)) -> (forall c', on_root root c' -> Q g (c', Ok root)) -> safe Q g (cache_open c).
Proof.
  intros Hc He Ho. unfold cache_open. destruct Hc as [E|E]; rewrite E; [apply He|]. destruct (c_open c); [apply Ho; right; exact E|].
  cbn [SharedDir.safe]. assert (X : forall r, SharedDir.safe final temp complete linkok Q g
     (Sys (SOpenDir root) (fun r0 => match r0 with RNum _ => Ret (mkCache (Some root) true, Ok root) | RFail e => Ret (c, Err e) | _ => Ret (c, UB) end)) = r -> r).
  { intros r <-. cbn [SharedDir.safe]. split; [exact He|]. intros _. apply Ho. right. reflexivity. }
  split; [intros e; eapply X; reflexivity|]. split; [apply root_not_final|]. intros n. eapply X; reflexivity.
Qed.


Definition got (l : loc) (r : cache * answer) : Prop := on_root root (fst r) /\ answered genuine (l, snd r) /\ texts_ok (snd (snd r)).



Lemma cache_get_safe fuel c l h g : on_root root c -> texts_ok h -> safe (fun _ => got l) g (cache_get digest fuel c l h).
Proof.
  intros Hc Ht. unfold cache_get. destruct (N.eqb_spec (mtime l) UINT64_MAX) as [Em|Em]; [split; [exact Hc|]; split; [exact Em|exact Ht]|].
  apply safe_bind. apply cache_open_safe; [exact Hc| |].
  - intros e. split; [exact Hc|]. split; [exact I|exact Ht].
  - intros c' Hc'. cbv beta iota. apply safe_bind. eapply safe_mono; [|apply get_head_safe, entry_final]. intros g1 r Hr. cbv beta. unfold head_ok in Hr.
    destruct r as [[[id buf] fd]|e| |]; [|split; [exact Hc'|split; [exact I|exact Ht]]|contradiction|contradiction].
    destruct Hr as (first & rest & Hg & Hp & Hf). destruct (texts_held h Ht) as [hs Hh]. destruct (putable_all _ _ Hp) as (Hs & Hz & _).
    apply safe_bind. eapply safe_mono; [|apply (get_items_safe hs fd fuel g1 buf origin_new h [] (first :: rest)); [|exact Hs|exact Hz|exact Hf]].
    2: { split; [exact Hh|]. exists []. split; [constructor; try constructor; reflexivity|]. auto. }
    intros g2 [r h2] Hr. unfold items_ok in Hr. cbn [app] in Hr. cbv beta iota. destruct r as [o|e| |]; [|split; [exact Hc'|split; [exact I|exact (held_texts _ _ Hr)]]|contradiction|contradiction].
    destruct (built_answer _ _ _ _ _ Hr) as (p & items' & Ei & s & Hsee & Hans). assert (Hh2 : held h2 (items o ++ hs)) by apply Hr.
    apply safe_bind. assert (Giveup : safe (fun g a => safe (fun _ => got l) g (Ret (c', a))) g2 (give_up o EINVAL h2)).
    { apply (give_up_safe hs); [exact Hh2|]. intros h3 H3. split; [exact Hc'|]. split; [exact I|exact (held_texts _ _ H3)]. }
    destruct (n_bytes o =? 0); [exact Giveup|]. assert (Hin : In p (items o ++ hs)) by (rewrite Ei; left; reflexivity). rewrite Ei.
    destruct (LocationHeapProofs.rd_ok h2 (items o ++ hs) p _ Hh2 Hin Hsee) as (ob & Eo & Ev & _).
    rewrite Eo, Ev. destruct (location_equal l (set_size s (kept 7 first)) (N.lor WITH_MTIME WITH_FEATURE_FLAGS)) eqn:Eq; [|exact Giveup].
    cbn [SharedDir.safe]. split; [exact Hc'|]. split; [|exact (held_texts _ _ Hh2)]. cbn [snd answered]. exists first, rest. split; [exact Hg|]. split; [|exact Hans].
    apply location_equal_iff in Eq. apply agree_kept, (agree_size s). exact Eq.
Qed.

(** ** Putting *)
Lemma buffer_write_safe T fd i (Q : ghost -> res unit -> Prop) : (forall g e, Q g (Err e)) ->
  forall fuel g c buf, g_own g = Some (T, fd, i, c) -> (forall g', g_own g' = Some (T, fd, i, c ++ buf) -> Q g' (Ok tt)) -> safe Q g (buffer_write fuel fd buf).
Proof.
  intros He. induction fuel as [|fuel IH]; intros g c buf Ho Hk; [exact I|]. cbn [buffer_write]. destruct buf as [|b bs]; [cbn [SharedDir.safe]; apply Hk; rewrite app_nil_r; exact Ho|].
  set (buf := b :: bs) in *. cbn [SharedDir.safe]. split; [intros e; apply He|]. exists T, i, c. split; [exact Ho|]. intros n Hn. destruct (N.ltb_spec (len buf) n); [lia|].
  eapply IH; [reflexivity|]. intros g' Hg'. apply Hk. rewrite Hg'. rewrite <- app_assoc, takeN_dropN. reflexivity.
Qed.

Lemma put_items_safe T fd i fuel (Q : ghost -> res (list N) -> Prop) : (forall g e, Q g (Err e)) ->
  forall ls g c buf, g_own g = Some (T, fd, i, c) -> (forall g' c' buf', g_own g' = Some (T, fd, i, c') -> c' ++ buf' = c ++ buf ++ texts ls -> Q g' (Ok buf')) ->
  safe Q g (put_items fuel fd buf ls).
Proof.
  intros He. induction ls as [|l ls IH]; intros g c buf Ho Hk; cbn [put_items].
  - cbn [SharedDir.safe]. eapply Hk; [exact Ho|]. change (texts []) with (@nil N). rewrite app_nil_r. reflexivity.
  - apply safe_bind. unfold buffer_write_maybe. destruct (len buf <? BUFFER_SIZE).
    + cbn [SharedDir.safe]. apply (IH g c); [exact Ho|]. intros g' c' buf' H1 H2. eapply Hk; [exact H1|]. rewrite H2. unfold texts. cbn [map concat]. rewrite format_seven, <- !app_assoc. reflexivity.
    + apply safe_bind. apply (buffer_write_safe T fd i) with (c := c); [intros; apply He|exact Ho|]. intros g1 H1. cbn [SharedDir.safe]. apply (IH g1 (c ++ buf)); [exact H1|].
      intros g' c' buf' H2 H3. eapply Hk; [exact H2|]. rewrite H3. unfold texts. cbn [map concat app]. rewrite format_seven, <- !app_assoc. reflexivity.
Qed.

Definition put_done (r : res N) : Prop := match r with Ok _ | Err _ => True | _ => False end.

Lemma put_file_safe fuel first rest id g : genuine (first :: rest) id -> putable (first :: rest) id ->
  safe (fun _ => put_done) g (put_file fuel (cache_path root (cache_key digest first)) id (first :: rest)).
Proof.
  intros Hg Hp. unfold put_file. cbn [SharedDir.safe]. split; [intros e; exact I|]. intros u _. split; [intros e; exact I|].
  split; [exists (key_of first), u; split; [apply digest_ok|reflexivity]|]. intros fd i.
  apply safe_bind. eapply (put_items_safe _ fd i); [intros; exact I|reflexivity|]. intros g1 c1 buf1 H1 E1. cbv beta iota. apply safe_bind.
  eapply (buffer_write_safe _ fd i); [intros; exact I|exact H1|]. intros g2 H2. cbv beta iota. cbn [SharedDir.safe]. split; [intros e; exact I|].
  exists fd, i, (c1 ++ buf1). split; [exact H2|]. split; [|intros _; exact I]. exists first, rest, id. split; [exact Hg|]. split; [exact Hp|]. split; [reflexivity|]. exact E1.
Qed.

Lemma cache_put_safe fuel c ls id g : on_root root c -> genuine ls id -> putable ls id ->
  safe (fun _ r => on_root root (fst r) /\ put_done (snd r)) g (cache_put digest fuel c ls id).
Proof.
  intros Hc Hg Hp. unfold cache_put. destruct ls as [|first rest]; [split; [exact Hc|exact I]|]. apply safe_bind. apply cache_open_safe; [exact Hc| |].
  - intros e. split; [exact Hc|exact I].
  - intros c' Hc'. cbv beta iota. assert (X : forall P : Prop, (forall (k := safe (fun _ r => on_root root (fst r) /\ put_done (snd r)) g
      (do r <- match rest with
                | [] =>
                  Sys (SSymlink (chunk_id_format id ++ 58 :: format first) (cache_path root (cache_key digest first))) (fun r =>
                    match r with
                    | RNum _ => Ret (Ok 1)
                    | RFail EEXIST => Ret (Ok 0)
                    | RFail ENAMETOOLONG => put_file fuel (cache_path root (cache_key digest first)) id (first :: rest)
                    | RFail e => Ret (Err e)
                    | _ => Ret UB
                    end)
                | _ =>
                  Sys (SAccess (cache_path root (cache_key digest first))) (fun r =>
                    match r with
                    | RNum _ => Ret (Ok 0)
                    | RFail _ => put_file fuel (cache_path root (cache_key digest first)) id (first :: rest)
                    | _ => Ret UB
                    end)
                end ;;
        Ret (c', r))), k -> P) -> P).
    { intros P HP. apply HP. apply safe_bind.
      assert (PF : safe (fun g a => safe (fun _ r => on_root root (fst r) /\ put_done (snd r)) g (Ret (c', a))) g (put_file fuel (cache_path root (cache_key digest first)) id (first :: rest))).
      { eapply safe_mono; [|apply put_file_safe; assumption]. intros g1 r Hr. split; [exact Hc'|exact Hr]. }
      assert (D : forall r, put_done r -> safe (fun g a => safe (fun _ r => on_root root (fst r) /\ put_done (snd r)) g (Ret (c', a))) g (Ret r)) by (intros r Hr; split; [exact Hc'|exact Hr]).
      destruct rest as [|l2 rest].
      - cbn [SharedDir.safe]. split; [|split; [apply entry_final|split; [|intros _; apply D; exact I]]].
        + intros e. destruct e; first [exact PF|apply D; exact I].
        + exists first, id. split; [exact Hg|]. split; [exact Hp|]. split; reflexivity.
      - cbn [SharedDir.safe]. split; [intros e; exact PF|]. intros _. apply D. exact I. }
    cbn [SharedDir.safe]. split; [intros e; apply X; intros k Hk; exact Hk|]. split; [apply four_not_final, digest_ok|]. intros n. apply X. intros k Hk. exact Hk.
Qed.

Lemma cache_remove_safe c l g : on_root root c -> safe (fun _ r => on_root root (fst r) /\ match snd r with Ok _ | Err _ => True | _ => False end) g (cache_remove digest c l).
Proof.
  intros Hc. unfold cache_remove. apply safe_bind. apply cache_open_safe; [exact Hc|intros e; split; [exact Hc|exact I]|]. intros c' Hc'. cbv beta iota.
  cbn [SharedDir.safe]. split; [intros e; split; [exact Hc'|exact I]|]. left. split; [apply entry_final|]. intros _. split; [intros e|intros n]; (split; [exact Hc'|exact I]).
Qed.

Lemma client_safe fuel c : forall g, honest genuine root c -> safe (fun _ => Forall (answered genuine)) g (client_prog digest fuel c).
Proof.
  induction c as [|c l h k IH|c ls id k IH|c l k IH]; intros g H; cbn [client_prog]; cbn [honest] in H.
  - constructor.
  - destruct H as (Hc & Ht & H). apply safe_bind. eapply safe_mono; [|apply cache_get_safe; eassumption]. intros g1 [c1 [a1 h1]] (Hc1 & Ha & Ht1). cbn [fst snd] in *. apply safe_bind.
    eapply safe_mono; [|apply IH, H; assumption]. intros g2 log Hl. cbn [SharedDir.safe]. constructor; assumption.
  - destruct H as (Hc & Hg & Hp & H). apply safe_bind. eapply safe_mono; [|apply cache_put_safe; eassumption]. intros g1 [c1 r] [Hc1 _]. apply IH, H. exact Hc1.
  - destruct H as (Hc & H). apply safe_bind. eapply safe_mono; [|apply cache_remove_safe; eassumption]. intros g1 [c1 r] [Hc1 _]. apply IH, H. exact Hc1.
Qed.

Lemma entry_inj k k' : id_ok k = true -> id_ok k' = true -> entry_name root k = entry_name root k' -> k = k'.
Proof.
  intros H H' E. rewrite !entry_parts in E. apply (f_equal basename) in E. rewrite !basename_app in E by apply entry_tail_no_slash.
  apply app_inj_len in E; [|apply Nat2N.inj; change (len (chunk_id_format k) = len (chunk_id_format k')); rewrite !len_format by assumption; reflexivity]. apply format_inj; [exact H|exact H'|apply E].
Qed.

Lemma intact_iff w : intact_cache digest genuine root w <-> intact final complete linkok w.
Proof.
  split.
  - intros H q (key & Hk & ->). destruct (H key Hk) as [E|[(l & id & E & Hg & Hp & first & rest & El & Ek)|(ls & id & E & Hg & Hp & first & rest & -> & Ek)]]; [auto|right; left|right; right].
    + injection El as <- <-. exists (entry_link l id). split; [exact E|]. exists l, id. unfold key_of. rewrite Ek. auto.
    + exists (entry_file (first :: rest) id). split; [exact E|]. exists first, rest, id. unfold key_of. rewrite Ek. auto.
  - intros H key Hk good. destruct (H (entry_name root key)) as [E|[(t & E & l & id & Hg & Hp & En & ->)|(c & E & first & rest & id & Hg & Hp & En & ->)]]; [exists key; auto|auto|right; left|right; right].
    + exists l, id. split; [exact E|]. split; [exact Hg|]. split; [exact Hp|]. exists l, []. split; [reflexivity|]. symmetry. apply entry_inj; [exact Hk|apply digest_ok|exact En].
    + exists (first :: rest), id. split; [exact E|]. split; [exact Hg|]. split; [exact Hp|]. exists first, rest. split; [reflexivity|]. symmetry. apply entry_inj; [exact Hk|apply digest_ok|exact En].
Qed.

Theorem cache_shared fuel cs w w' ps' : files_exist w -> intact_cache digest genuine root w -> Forall (honest genuine root) cs ->
  psteps (w, map (client_prog digest fuel) cs) (w', ps') ->
  intact_cache digest genuine root w' /\ forall log, In (Ret log) ps' -> Forall (answered genuine) log.
Proof.
  intros Hs Hi Hc Hst.
  assert (Hp : forall p, In p (map (client_prog digest fuel) cs) -> safe (fun _ => Forall (answered genuine)) idle p).
  { intros p Hp. apply in_map_iff in Hp. destruct Hp as (c & <- & Hin). apply client_safe. rewrite Forall_forall in Hc. apply Hc. exact Hin. }
  destruct (shared_dir final temp complete linkok (temp_not_final root) complete_final (Forall (answered genuine)) w _ w' ps' Hs (proj1 (intact_iff _) Hi) Hp Hst) as [H1 H2].
  split; [apply intact_iff; exact H1|exact H2].
Qed.
End Safe.
