(** Proofs about SyncCache.v, 5: with nothing in the cache. *)
From Verif Require Import Base Chunker ChunkerSpec ChunkerProofs SyncCache SyncCacheSpec SyncCacheProofs1 SyncCacheProofs2.
Local Open Scope N_scope.

Section Tree.
Context (digest : list N -> list N) (c : cfg) (quick : bool) (tree : list region) (Hc : cfg_ok c = true) (Htree : tree_ok tree).
Context (ask : loc -> answer).
Notation total := (len (stream tree)).

(** As if the data had been cut in one go. *)
Record plain (cs : list (list N)) (s : sync) : Prop := {
  m_index : s_index s = listing digest cs;
  m_stored : s_stored s = cs;
  m_ck : Rep c (s_ck s) (s_buf s) }.
Definition plainly (E : N) (s : sync) : Prop := plain (fst (spec_split c [] (sub tree 0 E))) s /\ s_buf s = snd (spec_split c [] (sub tree 0 E)) /\ E <= total.

Lemma write_loop_plain cached : forall n s cs p s', plain cs s -> write_loop digest c n cached s p = (s', Ok tt) ->
  plain (cs ++ fst (spec_split c (s_buf s) p)) s' /\ s_buf s' = snd (spec_split c (s_buf s) p) /\ s_enc s' = s_enc s /\ s_item s' = s_item s /\
  (s_state s' = s_state s \/ s_state s' = CCheck /\ cached = true).
Proof.
  induction n as [|n IH]; intros s cs p s' [A B D] H; cbn [write_loop] in H.
  { destruct (N.eqb_spec (len p) 0) as [E0|E0]; [|discriminate]. apply len_zero_nil in E0. subst p. injection H as <-. cbn [spec_split fst snd]. rewrite app_nil_r.
    repeat split; try assumption. left. reflexivity. }
  destruct (N.eqb_spec (len p) 0) as [E0|E0].
  { apply len_zero_nil in E0. subst p. injection H as <-. cbn [spec_split fst snd]. rewrite app_nil_r. repeat split; try assumption. left. reflexivity. }
  pose proof (scan_ok c Hc (s_ck s) (s_buf s) p D) as HS. unfold scan_result in HS. rewrite spec_split_first_cut. destruct (first_cut c (s_buf s) p) as [k|] eqn:Hfc.
  - destruct HS as (w & Hw & E). rewrite E in H. rewrite N.add_0_l in H. set (chunk := s_buf s ++ takeN k p) in *.
    cbv zeta in H. match type of H with match ?y with _ => _ end = _ => set (tk := y) in H end. destruct tk as [[o rest]| | |]; try discriminate.
    set (s1 := set_buffer _ _ [] rest) in H.
    assert (P1 : plain (cs ++ [chunk]) s1).
    { constructor.
      - unfold s1. cbn [set_buffer write_one_chunk s_index]. rewrite A. unfold listing. rewrite map_app. reflexivity.
      - unfold s1. cbn [set_buffer write_one_chunk s_stored]. rewrite B. reflexivity.
      - unfold s1. cbn [set_buffer s_ck s_buf]. apply rep_init; [exact Hc|exact Hw]. }
    destruct (IH _ _ _ _ P1 H) as (Q1 & Q2 & Q3 & Q4 & Q5). change (s_buf s1) with (@nil N) in Q1, Q2.
    destruct (spec_split c [] (dropN k p)) as [cs' r]. cbn [fst snd] in *. split; [rewrite <- app_assoc in Q1; exact Q1|]. split; [exact Q2|]. split; [exact Q3|]. split; [exact Q4|].
    unfold s1 in Q5. cbn [set_buffer write_one_chunk s_state] in Q5. destruct cached; [right|left].
    + destruct Q5 as [-> |[-> _]]; split; reflexivity.
    + destruct Q5 as [-> |[_ E']]; [reflexivity|discriminate].
  - destruct HS as (ck' & E & HR'). rewrite E in H. injection H as <-. cbn [fst snd]. rewrite app_nil_r. repeat split; try assumption. left. reflexivity.
Qed.

Definition cached_in (s : sync) : bool := match s_state s with COff => false | _ => true end.

Lemma take_data_plain s E l s' o : plainly E s -> s_item s = None -> s_state s = COff \/ s_state s = CIdle -> fresh tree (s_enc s) E ->
  take_data digest c quick tree s l 0 = (s', o) -> o = More -> s_item s' = None /\ exists E', ready tree (s_enc s') E' /\ plainly E' s' /\
  (s_state s' = s_state s \/ s_state s' = CCheck /\ s_state s = CIdle).
Proof.
  intros (P1 & P2 & P3) Hit Hst (i & off & r & He & Hi & Hoff & EE) H Ho. unfold take_data in H. fold (cached_in s) in H. rewrite He in H.
  destruct (data_ok c quick tree i off None true r Hi Hoff ltac:(discriminate)) as (k & Ed & Hk0 & Hkle & Hkpl & _). rewrite Ed in H. rewrite andb_false_r in H. cbn [andb] in H.
  set (s1 := set_enc s _) in H. cbv zeta in H. rewrite dropN_0 in H.
  match type of H with match ?x with _ => _ end = _ => destruct x as [l1|]; [|injection H as <- <-; discriminate] end.
  unfold write_chunks in H. set (s2 := if cached_in s then _ else s1) in H.
  destruct (write_loop digest c _ (cached_in s) s2 (sub tree (base tree i + off) k)) as [s3 w] eqn:Ew.
  injection H as <- H. destruct w as [[]| | |]; try (subst o; discriminate).
  assert (Pl2 : plain (fst (spec_split c [] (sub tree 0 E))) s2 /\ s_buf s2 = s_buf s /\ s_enc s2 = EAt i off k false /\ s_item s2 = None /\ s_state s2 = s_state s).
  { destruct P1 as [A B D]. unfold s2. destruct (cached_in s); (split; [constructor; assumption|]); repeat split; exact Hit. }
  destruct Pl2 as (Pl2 & Eb & Ee & Ei & Es).
  destruct (write_loop_plain _ _ _ _ _ _ Pl2 Ew) as (Q1 & Q2 & Q3 & Q4 & Q5). split; [congruence|]. exists (E + k).
  pose proof (base_le tree i r Hi) as Hb.
  assert (Hsub : sub tree 0 (E + k) = sub tree 0 E ++ sub tree (base tree i + off) k).
  { rewrite <- (sub_app tree 0 E k) by lia. rewrite N.add_0_l, <- EE. reflexivity. }
  split; [right; exists i, off, k, false, r; repeat split; try assumption; try congruence; lia|]. split.
  - unfold plainly. rewrite Hsub, spec_split_app. cbn [fst snd]. rewrite <- P2. rewrite Eb in Q1, Q2. split; [exact Q1|]. split; [exact Q2|]. lia.
  - rewrite Es in Q5. destruct Q5 as [->|[-> Ecx]]; [left; reflexivity|]. right. split; [reflexivity|]. unfold cached_in in Ecx. destruct Hst as [Hst|Hst]; rewrite Hst in *; [discriminate|reflexivity].
Qed.

Lemma take_data_unfinished s l x s' : take_data digest c quick tree s l x <> (s', Finished).
Proof.
  unfold take_data. destruct (encoder_data quick tree (s_enc s) None true) as [e r]. destruct r as [p|err| |]; try (cbn [failed]; congruence). cbv zeta.
  match goal with |- match ?y with _ => _ end <> _ => destruct y as [l1|]; [|congruence] end. destruct (write_chunks _ _ _ _ _ _) as [s1 [[]|err| |]]; cbn [failed]; congruence.
Qed.

Definition minv (s : sync) : Prop := s_item s = None /\ (s_state s = COff \/ s_state s = CIdle \/ s_state s = CCheck) /\ exists E, ready tree (s_enc s) E /\ plainly E s.

Definition done (s : sync) : Prop := plain (spec_chunks c (stream tree)) s.

Lemma on_data_plain s E s' o : (s_state s = COff \/ forall l, ask l = Miss) -> plainly E s -> s_item s = None -> (s_state s = COff \/ s_state s = CIdle \/ s_state s = CCheck) ->
  fresh tree (s_enc s) E -> on_data digest c quick tree ask s = (s', o) ->
  match o with More => minv s' /\ (s_state s = COff -> s_state s' = COff) | Finished => False | _ => True end.
Proof.
  intros Hm HP Hit Hst Hf H. unfold on_data in H.
  assert (T : forall s1 l, s_item s1 = None -> plainly E s1 -> (s_state s1 = COff \/ s_state s1 = CIdle) -> fresh tree (s_enc s1) E -> take_data digest c quick tree s1 l 0 = (s', o) ->
              match o with More => minv s' /\ (s_state s1 = COff -> s_state s' = COff) | Finished => False | _ => True end).
  { intros s1 l A B D F G. destruct o; try exact I; [|exact (take_data_unfinished _ _ _ _ G)]. destruct (take_data_plain s1 E l s' More B A D F G eq_refl) as (Q1 & E' & Q2 & Q3 & Q4). split.
    - split; [exact Q1|]. split; [destruct Q4 as [->|[-> _]]; [destruct D as [->| ->]; auto|auto]|]. exists E'. split; assumption.
    - intros Z. destruct Q4 as [->|[_ Q4]]; [exact Z|]. congruence. }
  destruct Hst as [Hst|[Hst|Hst]]; rewrite Hst in *.
  - specialize (T s None Hit HP (or_introl Hst) Hf H). destruct o; try exact T. destruct T as [A B]. split; [exact A|]. intros _. exact (B Hst).
  - specialize (T s None Hit HP (or_intror Hst) Hf H). destruct o; try exact T. destruct T as [A B]. split; [exact A|discriminate].
  - destruct Hm as [Hm|Hm]; [discriminate|]. destruct (_ || _); [injection H as <- <-; exact I|].
    destruct (encoder_location tree (s_enc s)) as [l|]; [|injection H as <- <-; exact I].
    unfold cache_get in H. rewrite Hm in H. specialize (T (set_state s CIdle) (Some l) Hit).
    assert (HP1 : plainly E (set_state s CIdle)) by (destruct HP as ([X Y Z] & P2 & P3); split; [constructor; assumption|split; assumption]).
    specialize (T HP1 (or_intror eq_refl) Hf H). destruct o; try exact T. destruct T as [A _]. split; [exact A|discriminate].
Qed.

Lemma write_final_plain cached s : plainly total s -> done (write_final digest cached s).
Proof.
  intros ([A B D] & P2 & _). assert (Es : sub tree 0 total = stream tree) by (unfold sub; rewrite dropN_0; apply takeN_all; lia). rewrite Es in *. unfold done, spec_chunks.
  destruct (spec_split c [] (stream tree)) as [cs r]. cbn [fst snd] in *. unfold write_final. rewrite P2. destruct r as [|x r].
  - change (len (@nil N) =? 0) with true. cbv iota. rewrite app_nil_r. constructor; try assumption.
  - destruct (N.eqb_spec (len (x :: r)) 0) as [E0|_]; [rewrite len_cons in E0; lia|]. constructor; cbn [write_one_chunk s_index s_stored s_ck s_buf].
    + rewrite A. unfold listing. rewrite map_app. reflexivity.
    + rewrite B. reflexivity.
    + exact D.
Qed.

Lemma next_plain s s' o : (s_state s = COff \/ forall l, ask l = Miss) -> minv s -> next_step digest c quick tree ask s = (s', o) ->
  match o with More => minv s' /\ (s_state s = COff -> s_state s' = COff) | Finished => done s' | _ => True end.
Proof.
  intros Hm (Hit & Hst & E & Hr & HP) H. unfold next_step in H. destruct (encoder_step tree (s_enc s)) as [e t] eqn:Ee.
  pose proof (encoder_step_ok digest c tree Htree (fun _ => True) _ _ _ _ Hr Ee) as Ht.
  assert (HP1 : plainly E (set_enc s e)) by (destruct HP as ([X Y Z] & P2 & P3); split; [constructor; assumption|split; assumption]).
  destruct t.
  - pose proof (on_data_plain (set_enc s e) E s' o Hm HP1 Hit Hst Ht H) as T. destruct o; try exact T. contradiction.
  - destruct Ht as [_ ->]. change (s_state (set_enc s e)) with (s_state s) in H. destruct Hst as [Hst|[Hst|Hst]]; rewrite Hst in H; injection H as <- <-; apply write_final_plain, HP1.
Qed.

Lemma step_plain s s' o : (s_state s = COff \/ forall l, ask l = Miss) -> minv s -> step_encode digest c quick tree ask s = (s', o) ->
  match o with More => minv s' /\ (s_state s = COff -> s_state s' = COff) | Finished => done s' | _ => True end.
Proof.
  intros Hm Hi H. pose proof Hi as (Hit & Hst & E & Hr & HP). unfold step_encode in H. destruct Hst as [Hst|[Hst|Hst]]; rewrite Hst in H.
  - apply (next_plain s s' o Hm Hi H).
  - apply (next_plain s s' o Hm Hi H).
  - destruct (len (s_buf s) =? 0); [apply (next_plain s s' o Hm Hi H)|]. destruct (s_borig s) as [|l bo]; [injection H as <- <-; exact I|].
    destruct Hm as [Hm|Hm]; [congruence|]. unfold cache_get in H. rewrite Hm in H.
    assert (Hi1 : minv (set_state s CIdle)).
    { split; [exact Hit|]. split; [right; left; reflexivity|]. exists E. split; [exact Hr|]. destruct HP as ([X Y Z] & P2 & P3). split; [constructor; assumption|split; assumption]. }
    pose proof (next_plain (set_state s CIdle) s' o (or_intror Hm) Hi1 H) as T. destruct o; try exact T. split; [apply T|]. congruence.
Qed.
End Tree.

Lemma run_plain digest c quick tree : cfg_ok c = true -> tree_ok tree -> forall asks s s', (s_state s = COff \/ Forall (fun ask => forall l, ask l = Miss) asks) ->
  minv digest c tree s -> run digest c quick tree asks s = (s', Finished) -> done digest c tree s'.
Proof.
  intros Hc Ht. induction asks as [|ask asks IH]; intros s s' Hm Hi H; cbn [run] in H; [discriminate|].
  destruct (step_encode digest c quick tree ask s) as [s1 o] eqn:Es.
  pose proof (step_plain digest c quick tree Hc Ht ask s s1 o) as T.
  destruct o; try discriminate.
  - destruct T as [A B]; [|exact Hi|exact Es|].
    + destruct Hm as [Hm|Hm]; [left; exact Hm|right; exact (Forall_inv Hm)].
    + apply (IH s1 s'); [|exact A|exact H]. destruct Hm as [Hm|Hm]; [left; exact (B Hm)|right; exact (Forall_inv_tail Hm)].
  - injection H as <-. apply T; [|exact Hi|exact Es]. destruct Hm as [Hm|Hm]; [left; exact Hm|right; exact (Forall_inv Hm)].
Qed.

Lemma minv_start digest c tree use : cfg_ok c = true -> minv digest c tree (sync_start use).
Proof.
  intros Hc. split; [reflexivity|]. split; [destruct use; auto|]. exists 0. split; [left; split; reflexivity|]. unfold plainly. unfold sub. rewrite takeN_0. cbn [spec_split fst snd].
  split; [|split; [reflexivity|lia]]. constructor; try reflexivity. apply rep_init; [exact Hc|reflexivity].
Qed.
