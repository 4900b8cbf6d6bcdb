(** The cache: what is put is found. *)
From Verif Require Import Base Locator Properties_Locator ChunkId ChunkIdProofs Posix PosixProofs ChunkFile Location LocationSpec LocationProofs1 LocationProofs2 LocationHeap LocationHeapProofs Origin OriginSpec OriginProofs1 OriginProofs2 OriginProofs3 StoreProofs1 StoreProofs2 StoreProofs4 StoreProofs9 StoreSpec Cache CacheSpec CacheProofs1 CacheProofs2.
Local Open Scope N_scope.
Local Opaque BUFFER_SIZE.

Lemma agree_to_kept a b s : mtime b < UINT64_MAX -> agree 6 a b -> agree 6 a (set_size s (kept 7 b)).
Proof.
  intros Hm. unfold agree, kept. cbn [set_size designator path offset size mtime inode generation_valid generation feature_flags name_table].
  change (asks_size 6) with false. change (asks_stamp 6) with true. change (asks_features 6) with true. change (asks_table 6) with false.
  change (asks_stamp 7) with true. change (asks_features 7) with true. cbn [andb]. destruct (N.eqb_spec (mtime b) UINT64_MAX) as [E|E]; [lia|]. cbn [negb andb].
  intros (H1 & H2 & H3 & _ & H5 & H6 & _). repeat (split; [assumption|]). split; [discriminate|]. split; [|split; [intros _; apply H6; reflexivity|discriminate]].
  intros _. destruct (H5 eq_refl) as [H7 H8]. split; [exact H7|]. intros X. destruct (H8 X) as (A & B & C). split; [exact A|]. split; [exact B|]. intros V.
  rewrite <- B, V. exact (C V).
Qed.

Lemma readlink_malloc_link p t w (Q : Posix.world -> res (list N) -> Prop) : name_at w p = Some (NLink t) -> Q w (Ok t) ->
  forall fuel l, (1 <= fuel)%nat -> 2 <= l -> len t + 1 < l - 1 + N.of_nat fuel -> ends false w (readlink_malloc fuel p l) Q.
Proof.
  intros Hn HQ. induction fuel as [|fuel IH]; intros l Hf Hl Hb; [lia|]. cbn [readlink_malloc ends]. split; [eauto using sys|].
  intros w' r H. inversion H; subst; try discriminate; try congruence; try (exfalso; congruence).
  - assert (t0 = t) as -> by congruence. destruct (N.ltb_spec (len (takeN (l - 1) t)) (l - 1)) as [Hx|Hx].
    + cbn [ends]. rewrite len_takeN in Hx. rewrite takeN_all by lia. exact HQ.
    + rewrite len_takeN in Hx. apply IH; lia.
Qed.
Lemma readlink_malloc_file p i w (Q : Posix.world -> res (list N) -> Prop) : name_at w p = Some (NFile i) -> Q w (Err EINVAL) ->
  forall fuel l, (1 <= fuel)%nat -> ends false w (readlink_malloc fuel p l) Q.
Proof.
  intros Hn HQ [|fuel] l Hf; [lia|]. cbn [readlink_malloc ends]. split.
  - eexists _, _. apply (s_readlink_other false w p (l - 1) (NFile i)); [exact Hn|discriminate].
  - intros w' r H. inversion H; subst; try discriminate; try congruence. exact HQ.
Qed.
Lemma readlink_malloc_none p w (Q : Posix.world -> res (list N) -> Prop) : name_at w p = None -> Q w (Err ENOENT) ->
  forall fuel l, (1 <= fuel)%nat -> ends false w (readlink_malloc fuel p l) Q.
Proof.
  intros Hn HQ [|fuel] l Hf; [lia|]. cbn [readlink_malloc ends]. split; [eauto using sys|].
  intros w' r H. inversion H; subst; try discriminate; try congruence. exact HQ.
Qed.

Section Alone.
Context (digest : list N -> list N) (root : list N).
Context (digest_ok : forall m, id_ok (digest m) = true).

Lemma cache_open_ends w c (Q : Posix.world -> cache * res (list N) -> Prop) : c_path c = Some root -> (name_at w root = None \/ name_at w root = Some NDir) ->
  (forall w', (w' = w \/ w' = put_name w root NDir) -> c_open c = true \/ name_at w' root = Some NDir -> Q w' (mkCache (Some root) true, Ok root)) -> ends false w (cache_open c) Q.
Proof.
  intros Hp Hr HQ. unfold cache_open. rewrite Hp. destruct c as [cp co]. cbn [c_path c_open] in *. subst cp. destruct co.
  - cbn [ends]. apply HQ; auto.
  - cbn [ends]. split; [destruct Hr as [Hr|Hr]; eauto using sys|]. intros w1 r1 H1.
    assert (W1 : (w1 = w \/ w1 = put_name w root NDir) /\ name_at w1 root = Some NDir).
    { inversion H1; subst; try discriminate.
      - split; [right; reflexivity|apply name_put_same].
      - split; [left; reflexivity|]. destruct Hr as [Hr|Hr]; congruence. }
    destruct W1 as [W1 D1]. split; [eauto using sys|]. intros w2 r2 H2. inversion H2; subst; try discriminate; try congruence. apply HQ; auto.
Qed.

Definition left_over (w : Posix.world) (fd : option nat) (buf : list N) (todo : list loc) : Prop :=
  match fd with
  | None => buf = texts todo
  | Some f => exists rest, reading w f rest /\ buf ++ rest = texts todo
  end.
Definition rest_len (w : Posix.world) (fd : option nat) (n : N) : Prop :=
  match fd with None => True | Some f => exists rest, reading w f rest /\ len rest <= n end.

Lemma get_items_ends hs fd : forall fuel w buf o h done todo, built h hs o done -> Forall sound_loc todo -> Forall (fun l => mtime l < UINT64_MAX) todo ->
  len (all_sources (done ++ todo)) < UINT64_MAX -> left_over w fd buf todo -> len (texts todo) + len (texts todo) - len buf < N.of_nat fuel ->
  ends false w (get_items fuel fd buf o h) (fun w' r => same_files w w' /\ exists o' h', r = (Ok o', h') /\ built h' hs o' (done ++ todo)).
Proof.
  induction fuel as [|fuel IH]; intros w buf o h done todo Hb Hs Hm Hz Hf Hfuel; [lia|]. cbn [get_items].
  destruct (cut 0 buf) as [[t rest]|] eqn:Ec.
  - assert (exists l todo', todo = l :: todo' /\ t = location_format l 7 /\ left_over w fd rest todo') as (l & todo' & -> & -> & Hf').
    { destruct fd as [f|]; cbn [left_over] in *.
      - destruct Hf as (more & Hr & E). destruct (next_text _ _ _ _ _ Hs E Ec) as (l & todo' & -> & -> & E'). exists l, todo'. split; [reflexivity|]. split; [reflexivity|]. exists more. auto.
      - destruct (next_text buf [] todo t rest Hs) as (l & todo' & -> & -> & E'); [rewrite app_nil_r; exact Hf|exact Ec|]. exists l, todo'. rewrite app_nil_r in E'. auto. }
    inversion Hs as [|? ? Hl Hs']; subst. inversion Hm as [|? ? Hlm Hm']; subst.
    destruct (get_item_ok h hs o done l todo' Hb Hl Hz) as (r & o' & h' & E & _ & [[-> Hb']|(_ & _ & X)]); [|lia]. rewrite E.
    replace (done ++ l :: todo') with ((done ++ [l]) ++ todo') in * by (rewrite <- app_assoc; reflexivity). apply IH; try assumption.
    apply cut_inv in Ec. destruct Ec as [-> _]. assert (len (texts (l :: todo')) = len (location_format l 7) + 1 + len (texts todo')).
    { unfold texts. cbn [map concat]. rewrite !len_app. reflexivity. } rewrite len_app, len_cons in Hfuel.
    assert (len rest <= len (texts todo')). { destruct fd as [f|]; cbn [left_over] in Hf'; [destruct Hf' as (more & _ & <-); rewrite len_app; lia|rewrite Hf'; lia]. }
    clear -H H0 Hfuel. lia.
  - assert (Stop : buf = texts todo -> forall w', same_files w w' -> ends false w' (match buf with [] => Ret (Ok o, h) | _ => give_up o EINVAL h end)
        (fun w' r => same_files w w' /\ exists o' h', r = (Ok o', h') /\ built h' hs o' (done ++ todo))).
    { intros E w' Hw. destruct (no_text _ _ E Ec) as [-> ->]. cbn [ends]. rewrite app_nil_r. split; [exact Hw|]. exists o, h. auto. }
    destruct fd as [f|]; [|apply Stop; [exact Hf|apply same_files_refl]]. cbn [left_over] in Hf. destruct Hf as (more & (i & pos & c & E1 & E2 & Hp & ->) & E). cbn [ends]. split; [eauto using sys|].
    intros w' r Hsys. destruct (sys_read_inv _ _ _ _ _ _ _ _ _ Hsys E1 E2) as [(Hx & _)|[-> ->]]; [discriminate|].
    pose proof (read_on buf c BUFFER_SIZE pos) as Er. assert (SF : same_files w (set_pos w f i (pos + len (takeN BUFFER_SIZE (dropN pos c))))) by (split; reflexivity).
    destruct (takeN BUFFER_SIZE (dropN pos c)) as [|b bs] eqn:Eb.
    + apply Stop; [|exact SF]. apply read_end in Eb. rewrite Eb, app_nil_r in E. exact E.
    + eapply ends_mono; [|apply (IH _ (buf ++ b :: bs) o h done todo)]; try assumption.
      * cbv beta. intros w2 r2 (W2 & o2 & h2 & -> & B2). split; [exact (same_files_trans _ _ _ SF W2)|]. exists o2, h2. auto.
      * exists (dropN (pos + len (b :: bs)) c). split; [|rewrite Er; exact E]. exists i, (pos + len (b :: bs)), c. split; [|split; [exact E2|split; [|reflexivity]]].
        -- cbn. apply nth_replace. apply nth_error_Some. congruence.
        -- rewrite <- Eb, len_takeN, len_dropN. lia.
      * assert (len (buf ++ b :: bs) <= len (texts todo)). { rewrite <- E, <- Er, !len_app. lia. } rewrite len_app, len_cons in *. lia.
Qed.

Lemma read_target_ends fuel w fd c : reading w fd c -> 32 <= len c -> (2 <= fuel)%nat -> forall Q : Posix.world -> res (list N * bool) -> Prop,
  (forall w' buf rest, same_files w w' -> reading w' fd rest -> buf ++ rest = c -> 32 <= len buf -> Q w' (Ok (buf, true))) -> ends false w (read_target fuel fd [] 32) Q.
Proof.
  intros Hr Hl Hf Q HQ. destruct fuel as [|[|fuel]]; [lia|lia|]. cbn [read_target]. change (len (@nil N)) with 0. change (32 <=? 0) with false. cbv iota.
  apply (ends_read fd BUFFER_SIZE) with (rest := c); [exact Hr|]. intros w' Hw Hr'. assert (Hb : 32 <= BUFFER_SIZE) by (vm_compute; discriminate).
  assert (32 <= len (takeN BUFFER_SIZE c)) by (rewrite len_takeN; lia). assert (T : takeN BUFFER_SIZE c ++ dropN BUFFER_SIZE c = c) by apply takeN_dropN.
  destruct (takeN BUFFER_SIZE c) as [|b bs] eqn:Eb; [change (len (@nil N)) with 0 in H; lia|]. cbn [app].
  destruct (N.leb_spec 32 (len (b :: bs))) as [_|X]; [|lia]. cbn [ends]. eapply HQ; eauto.
Qed.

Lemma cache_get_ends fuel w c l h ls first id :
  c_path c = Some root -> texts_ok h -> ready digest root w l -> entry_at digest root w l ls id -> putable ls id -> dated ls ->
  hd_error ls = Some first -> mtime l < UINT64_MAX -> agree 6 l first -> 2 * len (entry_file ls id) + 66 < N.of_nat fuel ->
  ends false w (cache_get digest fuel c l h) (fun w' r => exists c' o h', r = (c', (Ok (id, o), h')) /\
    (exists vs, map (value h') (items o) = map Some vs /\ concat (map sources vs) = concat (map (fun x => sources (rerooted None x)) ls))).
Proof.
  intros Hc Ht (Rr & Rs & _) He Hp [Hd Hne] Hfirst Hm Ha Hfuel. destruct ls as [|f0 rest]; [discriminate|]. injection Hfirst as ->.
  destruct (texts_held h Ht) as [hs Hh]. destruct (putable_all _ _ Hp) as (Hs & Hz & Hi).
  assert (Hl32 : len id = 32). { unfold id_ok in Hi. apply andb_prop in Hi. destruct Hi as [Hi _]. apply N.eqb_eq in Hi. exact Hi. }
  assert (Lf : len (entry_file (first :: rest) id) = 32 + len (texts (first :: rest))) by (unfold entry_file; rewrite len_app, Hl32; reflexivity).
  unfold cache_get. destruct (N.eqb_spec (mtime l) UINT64_MAX); [lia|]. apply ends_bind. apply cache_open_ends; [exact Hc|exact Rr|].
  intros w1 Hw1 _. cbv beta iota.
  assert (He1 : entry_at digest root w1 l (first :: rest) id).
  { destruct Hw1 as [-> | ->]; [exact He|]. unfold entry_at in *. set (name := entry_name root (digest (location_message l false))) in *.
    assert (X : root <> name). { intros E. apply (root_not_final root). exists (digest (location_message l false)). split; [apply digest_ok|exact E]. }
    assert (Y : name_at (put_name w root NDir) name = name_at w name) by (apply name_put_other; exact X). unfold file_at in *. rewrite Y. exact He. }
  clear He Hw1 Rr Rs. apply ends_bind.
  assert (Fin : forall w2 buf fd, left_over w2 fd buf (first :: rest) -> ends false w2
     (do (r, h0) <- get_items fuel fd buf origin_new h ;;
      match r with
      | Ok o =>
        do x <- (if n_bytes o =? 0 then give_up o EINVAL h0
                 else match items o with
                      | [] => Ret (UB, h0)
                      | p :: _ => match rd p h0 with
                                  | None => Ret (UB, h0)
                                  | Some (first, _) => if location_equal l (val first) (N.lor WITH_MTIME WITH_FEATURE_FLAGS) then Ret (Ok (id, o), h0)
                                                       else give_up o EINVAL h0
                                  end
                      end) ;;
        Ret (mkCache (Some root) true, x)
      | Err e => Ret (mkCache (Some root) true, (Err e, h0))
      | Abort => Ret (mkCache (Some root) true, (Abort, h0))
      | UB => Ret (mkCache (Some root) true, (UB, h0))
      end)
     (fun w' r => exists c' o h', r = (c', (Ok (id, o), h')) /\
    (exists vs, map (value h') (items o) = map Some vs /\ concat (map sources vs) = concat (map (fun x => sources (rerooted None x)) (first :: rest))))).
  { intros w2 buf fd Hlo. apply ends_bind. eapply ends_mono; [|apply (get_items_ends hs fd fuel w2 buf origin_new h [] (first :: rest)); [|exact Hs|exact Hd|exact Hz|exact Hlo|lia]].
    2: { split; [exact Hh|]. exists []. split; [constructor; try constructor; reflexivity|]. auto. }
    cbv beta. intros w3 r (_ & o & h3 & -> & Hb). cbn [app] in Hb. cbv beta iota.
    destruct (built_answer _ _ _ _ _ Hb) as (p & items' & Ei & s & Hsee & vs & V1 & V2 & V3). assert (Hh2 : held h3 (items o ++ hs)) by apply Hb.
    apply ends_bind. destruct (N.eqb_spec (n_bytes o) 0) as [Ez|_].
    { exfalso. apply Hne. apply len_zero_nil. rewrite V3, V2 in Ez. pose proof (len_all (first :: rest)) as La. unfold all_sources in La. rewrite map_map in La. rewrite <- La. exact Ez. }
    assert (Hin : In p (items o ++ hs)) by (rewrite Ei; left; reflexivity).
    destruct (LocationHeapProofs.rd_ok h3 (items o ++ hs) p _ Hh2 Hin Hsee) as (ob & Eo & Ev & _). rewrite Ei, Eo, Ev.
    assert (Eq : location_equal l (set_size s (kept 7 first)) (N.lor WITH_MTIME WITH_FEATURE_FLAGS) = true).
    { apply location_equal_iff. apply agree_to_kept; [|exact Ha]. inversion Hd; assumption. }
    rewrite Eq. cbn [ends]. exists (mkCache (Some root) true), o, h3. split; [reflexivity|]. exists vs. auto. }
  change (cache_path root (cache_key digest l)) with (entry_name root (digest (location_message l false))).
  destruct He1 as [He|(x & El & He)]; unfold get_head; apply ends_bind.
  - unfold file_at in He. destruct (name_at w1 (entry_name root (digest (location_message l false)))) as [[|t|i]|] eqn:En; try discriminate.
    apply (readlink_malloc_file _ i); [exact En| |lia]. cbv beta iota. cbn [ends]. split; [eauto using sys|]. intros w2 r H2. inversion H2; subst; try discriminate; try congruence.
    match goal with E1 : name_at _ _ = Some (NFile ?j) |- _ => assert (j = i) as -> by congruence end.
    apply ends_bind. apply (read_target_ends fuel _ _ (entry_file (first :: rest) id)).
    + exists i, 0, (entry_file (first :: rest) id). split; [cbn; rewrite nth_error_app2 by lia; rewrite Nat.sub_diag; reflexivity|]. split; [exact He|]. split; [lia|rewrite dropN_0; reflexivity].
    + lia.
    + lia.
    + intros w3 buf more _ Hr Eb Hb. cbn [ends]. cbv beta iota.
      assert (E : takeN 32 buf ++ (dropN 32 buf ++ more) = id ++ texts (first :: rest)) by (rewrite app_assoc, takeN_dropN; exact Eb).
      apply app_inj_len in E; [|apply Nat2N.inj; change (len (takeN 32 buf) = len id); rewrite len_takeN, Hl32; lia]. destruct E as [-> E]. apply Fin. exists more. auto.
  - injection El as -> ->. pose proof (link_text x id Hp) as Hn.
    apply (readlink_malloc_link _ (entry_link x id)); [exact He| |lia|lia|].
    2: { assert (len (entry_link x id) = 65 + len (location_format x 7)) as -> by (unfold entry_link; rewrite !len_app, len_format by exact Hi; change (len [58]) with 1; lia).
         assert (len (texts [x]) = len (location_format x 7) + 1) by (unfold texts; cbn [map concat]; rewrite app_nil_r, len_app; reflexivity). lia. }
    cbv beta iota. rewrite (cstring_no_nul _ Hn). pose proof (len_format id Hi) as Hl. unfold entry_link.
    assert (E : (chunk_id_format id ++ [58] ++ location_format x 7) ++ [0] = chunk_id_format id ++ 58 :: (location_format x 7 ++ [0])) by (rewrite <- !app_assoc; reflexivity).
    rewrite E. destruct (N.ltb_spec (len (chunk_id_format id ++ 58 :: (location_format x 7 ++ [0]))) 65) as [H|_].
    { rewrite len_app, Hl, len_cons in H. lia. }
    assert (A : at_ (chunk_id_format id ++ 58 :: (location_format x 7 ++ [0])) 64 = 58). { rewrite <- Hl. rewrite at_app. reflexivity. }
    rewrite A. change (58 =? 58) with true. cbn [negb].
    rewrite takeN_app_exact by exact Hl. rewrite cstring_no_nul.
    2: { intros H. apply Hn. unfold entry_link. apply in_or_app. left. exact H. }
    rewrite parse_format by exact Hi. cbn [ends]. apply Fin. cbn [left_over]. unfold texts. cbn [map concat]. rewrite app_nil_r.
    change (chunk_id_format id ++ 58 :: location_format x 7 ++ [0]) with (chunk_id_format id ++ [58] ++ location_format x 7 ++ [0]).
    rewrite app_assoc. apply dropN_app_exact. rewrite len_app, Hl. reflexivity.
Qed.

(** ** Putting *)
Lemma buffer_write_ends fuel : forall w fd i c buf, writing w fd i c -> len buf < N.of_nat fuel ->
  ends false w (buffer_write fuel fd buf) (fun w' r => r = Ok tt /\ w' = wrote w fd i (c ++ buf)).
Proof.
  induction fuel as [|fuel IH]; intros w fd i c p HW Hf; [lia|]. cbn [buffer_write]. destruct p as [|x p].
  - cbn. split; [reflexivity|]. rewrite app_nil_r, wrote_same by exact HW. reflexivity.
  - set (d := x :: p) in *. assert (0 < len d) as Hd by (unfold d; rewrite len_cons; lia). cbn [ends]. split.
    + destruct HW as [H1 H2]. eexists. eexists. eapply (s_write false w fd d i (len c) c (len d)); [exact H1|exact H2|lia|auto].
    + intros w' r Hs. destruct (sys_write_end _ _ _ _ _ _ _ _ Hs HW) as [(Hx & _)|(k & Hk & Hp & -> & ->)]; [discriminate|].
      destruct Hp as [Hp|Hp]; [|discriminate]. replace (len d <? k) with false by lia.
      eapply ends_mono; [|apply (IH _ fd i (c ++ takeN k d) (dropN k d))].
      * cbv beta. intros w2 r [-> ->]. split; [reflexivity|]. rewrite wrote_wrote, <- app_assoc, takeN_dropN. reflexivity.
      * eapply wrote_writing; eauto.
      * rewrite len_dropN. lia.
Qed.

Lemma put_items_ends fuel fd i : forall ls w c buf, writing w fd i c -> len (buf ++ texts ls) < N.of_nat fuel ->
  ends false w (put_items fuel fd buf ls) (fun w' r => exists c' buf', r = Ok buf' /\ writing w' fd i c' /\ w_names w' = w_names w /\ c' ++ buf' = c ++ buf ++ texts ls /\ len buf' < N.of_nat fuel).
Proof.
  induction ls as [|l ls IH]; intros w c buf HW Hf; cbn [put_items].
  - cbn [ends]. change (texts []) with (@nil N) in *. rewrite app_nil_r in *. exists c, buf. auto.
  - assert (T : texts (l :: ls) = (location_format l 7 ++ [0]) ++ texts ls) by reflexivity. rewrite T in *. rewrite !len_app in Hf.
    apply ends_ptry. unfold buffer_write_maybe. destruct (len buf <? BUFFER_SIZE).
    + cbn [ends]. exists buf. split; [reflexivity|]. eapply ends_mono; [|apply (IH w c (buf ++ format l ++ [0])); [exact HW|]].
      * cbv beta. intros w' r (c' & buf' & -> & W' & N' & E' & L'). exists c', buf'. split; [reflexivity|]. split; [exact W'|]. split; [exact N'|]. split; [|exact L'].
        rewrite E', format_seven, <- !app_assoc. reflexivity.
      * rewrite format_seven, !len_app in *. lia.
    + apply ends_ptry. eapply ends_mono; [|apply (buffer_write_ends fuel w fd i c buf HW); lia]. cbv beta. intros w1 r [-> ->]. exists tt. split; [reflexivity|]. cbn [ends]. exists []. split; [reflexivity|].
      eapply ends_mono; [|apply (IH _ (c ++ buf) ([] ++ format l ++ [0])); [eapply wrote_writing; exact HW|]].
      * cbv beta. intros w' r (c' & buf' & -> & W' & N' & E' & L'). exists c', buf'. split; [reflexivity|]. split; [exact W'|]. split; [exact N'|]. split; [|exact L'].
        rewrite E', format_seven. cbn [app]. rewrite <- !app_assoc. reflexivity.
      * rewrite format_seven. cbn [app]. rewrite !len_app in *. lia.
Qed.

(** What putting does to the names. *)
Definition only_entry (l : loc) (w w' : Posix.world) : Prop :=
  let key := digest (location_message l false) in
  (name_at w' root = name_at w root \/ name_at w' root = Some NDir) /\ name_at w' (root ++ [47] ++ firstn 4 (chunk_id_format key)) = Some NDir /\
  forall q, q <> root -> q <> root ++ [47] ++ firstn 4 (chunk_id_format key) -> q <> entry_name root key -> name_at w' q = name_at w q.

Lemma put_file_ends fuel w first ls id : let name := entry_name root (digest (location_message first false)) in
  let sub := root ++ [47] ++ firstn 4 (chunk_id_format (digest (location_message first false))) in
  name_at w name = None -> name_at w sub = Some NDir -> (forall s, name_at w (sub ++ [47; 46; 35] ++ s) = None) -> len (entry_file ls id) < N.of_nat fuel ->
  ends false w (put_file fuel name id ls) (fun w' r => r = Ok 1 /\ file_at w' name = Some (entry_file ls id) /\ forall q, q <> name -> name_at w' q = name_at w q).
Proof.
  intros name sub Hn Hs Ht Hf. unfold put_file. cbn [ends]. split; [exists w, (RNum 0); constructor; reflexivity|]. intros w1 r1 H1. inversion H1; subst; try discriminate.
  rename v into u. set (T := temp_path name u).
  assert (DT : T = sub ++ [47; 46; 35] ++ basename name ++ nibbles 16 u). { unfold T, temp_path. unfold name at 1. rewrite dirname_entry. unfold sub. rewrite <- !app_assoc. reflexivity. }
  assert (TN : name_at w1 T = None) by (rewrite DT; apply Ht).
  assert (TD : dirname T = sub). { unfold T. unfold name. rewrite temp_parts, dirname_app by apply temp_tail_no_slash. rewrite dirname_entry. reflexivity. }
  assert (TX : T <> name). { intros E. apply (temp_not_final root T). { exists (digest (location_message first false)), u. split; [apply digest_ok|reflexivity]. } exists (digest (location_message first false)). split; [apply digest_ok|exact E]. }
  split; [eexists _, _; apply s_creat; [exact TN|rewrite TD; exact Hs]|]. intros w2 r2 H2. inversion H2; subst; try discriminate; try congruence. clear H1 H2.
  set (w2 := add_fd (add_file w1 T) (length (w_inodes w1))). set (fd := length (w_fds w1)). set (i := length (w_inodes w1)).
  assert (W2 : writing w2 fd i []). { unfold w2, fd, i. split; cbn; rewrite nth_error_app2 by lia; rewrite Nat.sub_diag; reflexivity. }
  apply ends_ptry. eapply ends_mono; [|apply (put_items_ends fuel fd i ls w2 [] id W2); exact Hf]. cbv beta. intros w3 r3 (c3 & b3 & -> & W3 & N3 & E3 & L3). exists b3. split; [reflexivity|].
  apply ends_ptry. eapply ends_mono; [|apply (buffer_write_ends fuel w3 fd i c3 b3 W3); exact L3]. cbv beta. intros w4 r4 [-> ->]. exists tt. split; [reflexivity|].
  set (w4 := wrote w3 fd i (c3 ++ b3)). assert (W4 : writing w4 fd i (c3 ++ b3)) by (eapply wrote_writing; exact W3).
  assert (N4 : forall q, name_at w4 q = if beq T q then Some (NFile i) else name_at w1 q). { intros q. unfold w4, wrote. rewrite name_set_pos, name_set_content. unfold name_at at 1. rewrite N3. change (name_at (add_file w1 T) q = if beq T q then Some (NFile i) else name_at w1 q). apply name_add_file. }
  assert (T4 : name_at w4 T = Some (NFile i)) by (rewrite N4, beq_refl; reflexivity).
  assert (F4 : name_at w4 name = None). { rewrite N4. apply beq_neq in TX. rewrite TX. exact Hn. }
  cbn [ends]. split; [eexists _, _; apply (s_renameat false w4 T name (NFile i)); [exact T4|congruence]|]. intros w5 r5 Hren. inversion Hren; subst; try discriminate; try congruence.
  match goal with E : name_at w4 T = Some ?m |- _ => assert (m = NFile i) as -> by congruence end. cbn [ends]. split; [reflexivity|]. split.
  - unfold file_at. rewrite name_put_same. change (nth_error (w_inodes w4) i = Some (entry_file ls id)). destruct W4 as [_ W4]. rewrite W4, E3. reflexivity.
  - intros q Hq. rewrite name_put_other by congruence. destruct (list_eq_dec N.eq_dec T q) as [<-|Hne]; [rewrite name_del, beq_refl; congruence|].
    rewrite name_del_other by exact Hne. rewrite N4. apply beq_neq in Hne. rewrite Hne. reflexivity.
Qed.

Lemma cache_put_ends fuel w c first rest id : c_path c = Some root -> ready digest root w first -> len (entry_file (first :: rest) id) < N.of_nat fuel ->
  let name := entry_name root (digest (location_message first false)) in
  ends false w (cache_put digest fuel c (first :: rest) id) (fun w' r => only_entry first w w' /\ fst r = mkCache (Some root) true /\
     (name_at w name = None /\ snd r = Ok 1 /\ entry_at digest root w' first (first :: rest) id \/
      name_at w name <> None /\ snd r = Ok 0 /\ name_at w' name = name_at w name /\ w_inodes w' = w_inodes w)).
Proof.
  intros Hc (Rr & Rs & Rt) Hf name. set (key := digest (location_message first false)) in *. set (sub := root ++ [47] ++ firstn 4 (chunk_id_format key)) in *.
  assert (Hk : id_ok key = true) by apply digest_ok.
  assert (Hsub : cache_four root key = sub) by (apply four_name; exact Hk).
  assert (SN : sub <> name). { intros E. apply (four_not_final root key Hk). rewrite Hsub, E. exists key. auto. }
  assert (RN : root <> name). { intros E. apply (root_not_final root). exists key. auto. }
  assert (RS : root <> sub). { intros E. apply (f_equal (@len N)) in E. unfold sub in E. rewrite len_app, len_app in E. change (len [47]) with 1 in E. lia. }
  assert (ST : forall s, sub <> sub ++ [47; 46; 35] ++ s). { intros s E. apply (f_equal (@len N)) in E. rewrite len_app, len_app in E. change (len [47; 46; 35]) with 3 in E. lia. }
  assert (RT : forall s, root <> sub ++ [47; 46; 35] ++ s). { intros s E. apply (f_equal (@len N)) in E. unfold sub in E. rewrite !len_app in E. change (len [47]) with 1 in E. lia. }
  unfold cache_put. apply ends_bind. apply cache_open_ends; [exact Hc|exact Rr|]. intros w1 Hw1 _. cbv beta iota. unfold cache_key. change (digest (location_message first false)) with key. rewrite Hsub.
  assert (N1 : forall q, q <> root -> name_at w1 q = name_at w q). { intros q Hq. destruct Hw1 as [-> | ->]; [reflexivity|]. apply name_put_other. congruence. }
  assert (R1 : name_at w1 root = name_at w root \/ name_at w1 root = Some NDir). { destruct Hw1 as [-> | ->]; [auto|]. right. apply name_put_same. }
  assert (I1 : w_inodes w1 = w_inodes w) by (destruct Hw1 as [-> | ->]; reflexivity).
  assert (S1 : name_at w1 sub = None \/ name_at w1 sub = Some NDir) by (rewrite N1 by congruence; exact Rs).
  cbn [ends]. split; [destruct S1 as [S1|S1]; eauto using sys|]. intros w2 r2 H2.
  assert (W2 : (w2 = w1 \/ w2 = put_name w1 sub NDir) /\ name_at w2 sub = Some NDir).
  { inversion H2; subst; try discriminate.
    - split; [right; reflexivity|apply name_put_same].
    - split; [left; reflexivity|]. destruct S1 as [S1|S1]; congruence. }
  clear H2. destruct W2 as [W2 S2].
  assert (N2 : forall q, q <> root -> q <> sub -> name_at w2 q = name_at w q). { intros q Hq Hq'. destruct W2 as [-> | ->]; [apply N1; exact Hq|]. rewrite name_put_other by congruence. apply N1. exact Hq. }
  assert (R2 : name_at w2 root = name_at w root \/ name_at w2 root = Some NDir). { destruct W2 as [-> | ->]; [exact R1|]. rewrite name_put_other by congruence. exact R1. }
  assert (I2 : w_inodes w2 = w_inodes w) by (destruct W2 as [-> | ->]; exact I1).
  assert (E2 : name_at w2 name = name_at w name) by (apply N2; congruence).
  assert (O2 : only_entry first w w2). { split; [exact R2|]. split; [exact S2|]. intros q Q1 Q2 Q3. apply N2; assumption. }
  clear R1 I1 S1 N1 Hw1 W2. change (cache_path root key) with name. apply ends_bind. destruct rest as [|l2 rest].
  - cbn [ends]. destruct (name_at w name) as [nd|] eqn:En.
    + split; [eauto using sys|]. intros w3 r3 H3. inversion H3; subst; try discriminate; try congruence. cbn [ends fst snd]. split; [exact O2|]. split; [reflexivity|]. right. split; [discriminate|]. auto 6.
    + assert (D : dirname name = sub) by (unfold name; rewrite dirname_entry; reflexivity). split; [eexists _, _; apply s_symlink; [congruence|rewrite D; exact S2]|].
      intros w3 r3 H3. inversion H3; subst; try discriminate; try congruence. cbn [ends fst snd]. split.
      * destruct O2 as (A & B & C). split; [rewrite name_put_other by (apply not_eq_sym; exact RN); exact A|]. split; [rewrite name_put_other by (apply not_eq_sym; exact SN); exact B|].
        intros q Q1 Q2 Q3. rewrite name_put_other by (apply not_eq_sym; exact Q3). apply C; assumption.
      * split; [reflexivity|]. left. split; [reflexivity|]. split; [reflexivity|]. right. exists first. split; [reflexivity|]. apply name_put_same.
  - cbn [ends]. destruct (name_at w name) as [nd|] eqn:En.
    + split; [eauto using sys|]. intros w3 r3 H3. inversion H3; subst; try discriminate; try congruence. cbn [ends fst snd]. split; [exact O2|]. split; [reflexivity|]. right. split; [discriminate|]. auto 6.
    + split; [eauto using sys|]. intros w3 r3 H3. inversion H3; subst; try discriminate; try congruence. rename w3 into w2.
      eapply ends_mono; [|apply (put_file_ends fuel w2 first (first :: l2 :: rest) id); [exact E2|exact S2| |exact Hf]].
      * cbv beta. intros w4 r4 (-> & F4 & N4). cbn [ends fst snd]. split.
        -- destruct O2 as (A & B & C). split; [rewrite N4 by exact RN; exact A|]. split; [rewrite N4 by exact SN; exact B|].
           intros q Q1 Q2 Q3. rewrite N4 by exact Q3. apply C; assumption.
        -- split; [reflexivity|]. left. split; [reflexivity|]. split; [reflexivity|]. left. exact F4.
      * intros s. change (name_at w2 (sub ++ [47; 46; 35] ++ s) = None). rewrite N2; [apply Rt|apply not_eq_sym, RT|apply not_eq_sym, ST].
Qed.
End Alone.
