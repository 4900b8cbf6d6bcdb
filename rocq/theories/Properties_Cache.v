(** C31: a cache lookup fails, or returns the id that was put for an equal location. *)
From Verif Require Import Base Locator ChunkId ChunkIdProofs Posix PosixProofs ChunkFile Location LocationSpec LocationProofs2 LocationHeap Origin OriginSpec StoreProofs1 StoreProofs2 StoreProofs4 StoreSpec Cache CacheSpec CacheProofs1 CacheProofs2 CacheProofs3.
Local Open Scope N_scope.

(** Any number of processes look up, put and remove in one directory, their system calls interleaved in any way, failing at any point
    with any error, or cut off anywhere (a crash). Whatever the digest makes collide: each lookup that succeeds returns an id that was
    put for a location that is equal to the one asked for, with the places put with it; and the directory stays such that this holds
    for later processes too. *)
Theorem cache_lookups_genuine digest genuine root (digest_ok : forall m, id_ok (digest m) = true) fuel clients w w' ps :
  files_exist w -> intact_cache digest genuine root w -> Forall (honest genuine root) clients ->
  psteps (w, map (client_prog digest fuel) clients) (w', ps) ->
  intact_cache digest genuine root w' /\ forall log, In (Ret log) ps -> Forall (answered genuine) log.
Proof. apply cache_shared. exact digest_ok. Qed.
Print Assumptions cache_lookups_genuine.

(** In particular from a directory without entries. *)
Corollary cache_from_empty digest genuine root (digest_ok : forall m, id_ok (digest m) = true) fuel clients w w' ps :
  files_exist w -> (forall key, name_at w (entry_name root key) = None) -> Forall (honest genuine root) clients ->
  psteps (w, map (client_prog digest fuel) clients) (w', ps) -> forall log, In (Ret log) ps -> Forall (answered genuine) log.
Proof.
  intros Hf He Hc Hs. refine (proj2 (cache_lookups_genuine digest genuine root digest_ok fuel clients w w' ps Hf _ Hc Hs)). intros key _. left. apply He.
Qed.
Print Assumptions cache_from_empty.

Lemma agree_message l first : agree 6 l first -> location_message l false = location_message first false.
Proof.
  intros (H1 & H2 & H3 & _ & H5 & H6 & _). destruct (H5 eq_refl) as [H7 H8]. specialize (H6 eq_refl). unfold location_message. change strempty with path_text. rewrite H1, H2, H3, H6, <- H7. cbn [andb].
  destruct (N.eqb_spec (mtime l) UINT64_MAX) as [E|E]; cbn [negb]; [reflexivity|]. destruct (H8 E) as (A & B & C). rewrite A, <- B. destruct (generation_valid l); [rewrite C by reflexivity|]; reflexivity.
Qed.

(** When no system call fails, what is put is found: by every location equal to the first one put. *)
Theorem cache_put_get digest root (digest_ok : forall m, id_ok (digest m) = true) fuel w c ls first id l h :
  c_path c = Some root -> ready digest root w first -> name_at w (entry_name root (digest (location_message first false))) = None ->
  putable ls id -> dated ls -> hd_error ls = Some first -> mtime l < UINT64_MAX -> agree 6 l first -> texts_ok h ->
  2 * len (entry_file ls id) + 66 < N.of_nat fuel ->
  ends false w (do (c, r) <- cache_put digest fuel c ls id ;; do (c, a) <- cache_get digest fuel c l h ;; Ret (r, a))
    (fun _ x => exists o h', x = (Ok 1, (Ok (id, o), h')) /\
       exists vs, map (value h') (items o) = map Some vs /\ concat (map sources vs) = concat (map (fun x => sources (rerooted None x)) ls)).
Proof.
  intros Hc Hr Hn Hp Hd Hf Hm Ha Ht Hfuel. destruct ls as [|f0 rest]; [discriminate|]. injection Hf as ->.
  apply ends_bind. eapply ends_mono; [|apply (cache_put_ends digest root digest_ok fuel w c first rest id Hc Hr); lia].
  cbv beta. intros w1 [c1 r1] ((O1 & O2 & O3) & Ec & [(_ & Er & Ee)|(X & _)]); [|contradiction]. cbn [fst snd] in Ec, Er. subst c1 r1. cbv beta iota.
  apply ends_bind. eapply ends_mono; [|apply (cache_get_ends digest root digest_ok fuel w1 _ l h (first :: rest) first id)]; try assumption; try reflexivity.
  - cbv beta. intros w2 [c2 a] (c' & o & h' & E & V). injection E as -> ->. cbn [ends]. exists o, h'. auto.
  - unfold ready. rewrite (agree_message l first Ha). destruct Hr as (R1 & R2 & R3). split; [destruct O1 as [-> | ->]; auto|]. split; [right; exact O2|].
    intros s. rewrite O3; [apply R3| | |].
    + intros E. apply (f_equal (@len N)) in E. rewrite !len_app in E. change (len [47]) with 1 in E. lia.
    + intros E. apply (f_equal (@len N)) in E. rewrite !len_app in E. change (len [47; 46; 35]) with 3 in E. lia.
    + intros E. rewrite entry_parts in E. change (root ++ 47 :: ?x) with (root ++ [47] ++ x) in E. apply app_inv_head in E. apply (f_equal (fun q => nth 1 q 0)) in E. cbn [app nth] in E.
      assert (K := digest_ok (location_message first false)). destruct (digest (location_message first false)) as [|b key] eqn:Ek; [discriminate|].
      rewrite format_cons in E. cbn [app nth] in E. symmetry in E. exact (encode_not_dot _ E).
  - unfold entry_at in *. rewrite (agree_message l first Ha). exact Ee.
Qed.
Print Assumptions cache_put_get.

(** What is removed is not found. *)
Theorem cache_remove_get digest genuine root (digest_ok : forall m, id_ok (digest m) = true) fuel w c l h :
  c_path c = Some root -> (name_at w root = None \/ name_at w root = Some NDir) -> intact_cache digest genuine root w -> mtime l < UINT64_MAX -> (1 <= fuel)%nat ->
  ends false w (do (c, r) <- cache_remove digest c l ;; do (c, a) <- cache_get digest fuel c l h ;; Ret (r, a))
    (fun _ x => (fst x = Ok tt \/ fst x = Err ENOENT /\ name_at w (entry_name root (digest (location_message l false))) = None) /\ snd x = (Err ENOENT, h)).
Proof.
  intros Hc Hr Hi Hm Hf. set (key := digest (location_message l false)). assert (Hk : id_ok key = true) by apply digest_ok.
  assert (RN : root <> entry_name root key). { intros E. apply (root_not_final root). exists key. auto. }
  assert (FN : cache_four root key <> entry_name root key). { intros E. apply (four_not_final root key Hk). exists key. auto. }
  assert (FR : cache_four root key <> root). { intros E. apply (f_equal (@len N)) in E. rewrite (four_name root key Hk), len_app, len_cons in E. lia. }
  assert (ND : name_at w (entry_name root key) <> Some NDir). { intros X. destruct (Hi key Hk) as [E|[(x & id & E & _)|(ls & id & E & _)]]; [congruence|congruence|]. unfold file_at in E. rewrite X in E. discriminate. }
  assert (Get : forall w2 co, (name_at w2 root = None \/ name_at w2 root = Some NDir) -> name_at w2 (entry_name root key) = None ->
     ends false w2 (cache_get digest fuel (mkCache (Some root) co) l h) (fun _ x => snd x = (Err ENOENT, h))).
  { intros w2 co R2 N2. unfold cache_get. destruct (N.eqb_spec (mtime l) UINT64_MAX); [lia|]. apply ends_bind. apply (cache_open_ends root); [reflexivity|exact R2|].
    intros w3 W3 _. cbv beta iota. assert (N3 : name_at w3 (entry_name root key) = None). { destruct W3 as [-> | ->]; [exact N2|]. rewrite name_put_other by exact RN. exact N2. }
    apply ends_bind. unfold get_head. apply ends_bind. apply readlink_malloc_none; [exact N3| |exact Hf]. cbv beta iota. cbn [ends snd]. reflexivity. }
  unfold cache_remove. apply ends_bind. apply ends_bind. apply (cache_open_ends root); [exact Hc|exact Hr|]. intros w1 W1 _. cbv beta iota. unfold cache_key. change (digest (location_message l false)) with key.
  change (cache_path root key) with (entry_name root key).
  assert (R1 : name_at w1 root = None \/ name_at w1 root = Some NDir). { destruct W1 as [-> | ->]; [exact Hr|]. right. apply name_put_same. }
  assert (N1 : name_at w1 (entry_name root key) = name_at w (entry_name root key)). { destruct W1 as [-> | ->]; [reflexivity|]. apply name_put_other. exact RN. }
  cbn [ends]. destruct (name_at w (entry_name root key)) as [nd|] eqn:En.
  - split; [eexists _, _; apply (s_unlink false w1 _ nd); [exact N1|congruence]|]. intros w2 r2 H2. inversion H2; subst; try discriminate; try congruence.
    assert (N2 : name_at (del_name w1 (entry_name root key)) (entry_name root key) = None) by (rewrite name_del, beq_refl; reflexivity).
    assert (R2 : name_at (del_name w1 (entry_name root key)) root = None \/ name_at (del_name w1 (entry_name root key)) root = Some NDir) by (rewrite name_del_other by congruence; exact R1).
    set (w2 := del_name w1 (entry_name root key)) in *. clearbody w2. split.
    + destruct (name_at w2 (cache_four root key)) as [[|t|i]|] eqn:E4; [destruct (existsb (in_dir (cache_four root key)) (w_names w2)) eqn:E5|..]; [eauto using sys|eauto using sys|..|eauto using sys];
        (eexists _, _; eapply s_rmdir_notdir; [exact E4|discriminate]).
    + intros w3 r3 Hrm. cbn [ends pbind]. assert (X : w3 = w2 \/ w3 = del_name w2 (cache_four root key)) by (inversion Hrm; subst; auto).
      apply ends_bind. eapply ends_mono; [|apply (Get w3 true)].
      * cbv beta. intros w4 [c4 a4] E. cbn [ends fst snd]. cbn [snd] in E. auto.
      * destruct X as [-> | ->]; [exact R2|]. rewrite name_del_other by exact FR. exact R2.
      * destruct X as [-> | ->]; [exact N2|]. rewrite name_del_other by exact FN. exact N2.
  - split; [eauto using sys|]. intros w2 r2 H2. inversion H2; subst; try discriminate; try congruence. cbn [ends].
    apply ends_bind. eapply ends_mono; [|apply (Get w2 true); [exact R1|congruence]]. cbv beta. intros w4 [c4 a4] E. cbn [ends fst snd]. cbn [snd] in E. auto.
Qed.
Print Assumptions cache_remove_get.

(** * Cases *)
(** A digest with many collisions. *)
Definition poor (m : list N) : list N := repeat (len m mod 256) 32.
Lemma poor_ok m : id_ok (poor m) = true.
Proof.
  unfold poor. assert (H : len m mod 256 < 256) by (apply N.mod_lt; discriminate). remember (len m mod 256) as b. clear Heqb. unfold id_ok. cbn [repeat bytes_ok forallb]. 
  assert (byte_ok b = true) as -> by (unfold byte_ok; apply N.ltb_lt; exact H). reflexivity.
Qed.
Definition at_offset (o : N) : loc := mkLoc 112 (Some [102; 47; 103]) o 100 None 1700000000000000000 42 7%Z true 255 UINT64_MAX [].
Definition the_id : list N := repeat 17 32.
Definition two := [at_offset 5; at_offset 1000].
Definition cache_root : list N := [47; 99].
Definition empty_world : Posix.world := Build_world [] [] [].

Lemma at_offset_sound o : o < 10000 -> proper (at_offset o) /\ typed (at_offset o) /\ size (at_offset o) < UINT64_MAX /\ ~ In 0 (path_text (path (at_offset o))).
Proof.
  intros H. change UINT64_MAX with 18446744073709551615. split; [|split; [|split]].
  - constructor; cbn; change UINT64_MAX with 18446744073709551615; try lia.
    + unfold kind. auto 10.
    + intros p E. injection E as <-. split; [discriminate|]. intros q X. discriminate.
  - constructor; cbn; unfold u64; change UINT64_MAX with 18446744073709551615; try lia. constructor.
  - cbn. lia.
  - cbn. intros [E|[E|[E|[]]]]; discriminate.
Qed.
Example two_putable : putable two the_id /\ dated two.
Proof.
  split; [split; [discriminate|split; [|split]]|split].
  - constructor; [apply at_offset_sound; reflexivity|]. constructor; [apply at_offset_sound; reflexivity|constructor].
  - vm_compute. reflexivity.
  - reflexivity.
  - repeat constructor; vm_compute; reflexivity.
  - vm_compute. discriminate.
Qed.

(** Hypotheses of [cache_lookups_genuine]: one process puts, another one looks up a location with the same key, a third removes. *)
Example clients_case : let genuine ls id := ls = two /\ id = the_id in
  files_exist empty_world /\ intact_cache poor genuine cache_root empty_world /\
  Forall (honest genuine cache_root) [CPut (mkCache (Some cache_root) false) two the_id (fun r => CGet (fst r) (at_offset 5) [] (fun _ => CDone));
                                      CGet (mkCache (Some cache_root) false) (at_offset 6) [] (fun _ => CDone);
                                      CRemove (mkCache (Some cache_root) true) (at_offset 7) (fun _ => CDone)] /\
  poor (location_message (at_offset 5) false) = poor (location_message (at_offset 6) false).
Proof.
  cbv zeta. split; [intros q i E; destruct i; discriminate|]. split; [intros key _; left; reflexivity|]. split; [|vm_compute; reflexivity].
  assert (T : texts_ok []) by (intros o t w []). constructor; [|constructor; [|constructor; [|constructor]]]; cbn [honest].
  - split; [right; reflexivity|]. split; [auto|]. split; [apply two_putable|]. intros c' r Hc. split; [exact Hc|]. auto.
  - split; [right; reflexivity|]. auto.
  - split; [right; reflexivity|]. auto.
Qed.

(** Hypotheses of [cache_put_get], and so: a lookup that succeeds. *)
Example put_get_case : ends false empty_world
  (do (c, r) <- cache_put poor 1000 (mkCache (Some cache_root) false) two the_id ;; do (c, a) <- cache_get poor 1000 c (at_offset 5) [] ;; Ret (r, a))
  (fun _ x => exists o h', x = (Ok 1, (Ok (the_id, o), h'))).
Proof.
  eapply ends_mono; [|apply (cache_put_get poor cache_root poor_ok 1000 empty_world _ two (at_offset 5) the_id (at_offset 5) [])]; try reflexivity.
  - cbv beta. intros _ x (o & h' & E & _). eauto.
  - split; [left; reflexivity|]. split; [left; reflexivity|]. reflexivity.
  - apply two_putable.
  - apply two_putable.
  - unfold agree. repeat split.
  - intros o t w [].
Qed.

(** * What does not hold *)
(** A put that fails leaves nothing behind: not so, as the clean-up looks for the temporary file in the working directory of the
    process, not in the cache. Here the rename fails. *)
Ltac now_at := match goal with |- exec ?f ?w ?p ?w' ?a => let q := eval hnf in p in change (exec f w q w' a) end.
Definition tiny (o : N) : loc := mkLoc 112 (Some [102]) o 1 None 7 8 0%Z false UINT64_MAX UINT64_MAX [].
Theorem cache_put_clean_refuted : exists w' c r, exec true empty_world (cache_put poor 1000 (mkCache (Some cache_root) false) [tiny 1; tiny 3] the_id) w' (c, Err r) /\
  exists s, file_at w' (cache_root ++ [47; 49; 97; 49; 97; 47; 46; 35] ++ s) = Some (entry_file [tiny 1; tiny 3] the_id).
Proof.
  eexists _, _, _. split.
  - now_at. eapply ex_sys; [apply s_mkdir; reflexivity|]. now_at. eapply ex_sys; [apply s_opendir; reflexivity|]. now_at. eapply ex_sys; [apply s_mkdir; reflexivity|].
    now_at. eapply ex_sys; [apply s_access_noent; vm_compute; reflexivity|]. now_at. eapply ex_sys; [apply (s_random true _ 0); reflexivity|].
    now_at. eapply ex_sys; [apply s_creat; vm_compute; reflexivity|].
    now_at. eapply ex_sys; [eapply (s_write true _ _ _ _ _ _ (len (entry_file [tiny 1; tiny 3] the_id))); [vm_compute; reflexivity|vm_compute; reflexivity|vm_compute; discriminate|right; reflexivity]|].
    now_at. eapply ex_sys; [apply (s_fault true _ _ ENOMEM); reflexivity|]. now_at. apply ex_ret.
  - exists (skipn 2 (basename (temp_path (cache_path cache_root (cache_key poor (tiny 1))) 0))). vm_compute. reflexivity.
Qed.
Print Assumptions cache_put_clean_refuted.

(** The key is not one-to-one, even before the digest: two locations (of different paths) with the same message. The second one's
    lookups fail, as long as the entry of the first one is there. *)
Definition mixed_a : loc := mkLoc 112 (Some [120]) 72340172838076673 1 None 8070733111048077569 8 0%Z false UINT64_MAX UINT64_MAX [].
Definition mixed_b : loc := mkLoc 112 (Some ([120; 112] ++ repeat 1 15)) 8 1 None UINT64_MAX 0 0%Z false UINT64_MAX UINT64_MAX [].
Theorem cache_key_injective_refuted : proper mixed_a /\ proper mixed_b /\ ~ agree 6 mixed_a mixed_b /\ location_message mixed_a false = location_message mixed_b false.
Proof.
  split; [|split; [|split]].
  - constructor; cbn; change UINT64_MAX with 18446744073709551615; try lia; [unfold kind; auto 10|]. intros p E. injection E as <-. split; [discriminate|]. intros q X. discriminate.
  - constructor; cbn; change UINT64_MAX with 18446744073709551615; try lia; [unfold kind; auto 10|]. intros p E. injection E as <-. split; [discriminate|]. intros q X. discriminate.
  - intros (_ & E & _). discriminate.
  - vm_compute. reflexivity.
Qed.
Print Assumptions cache_key_injective_refuted.
