From Verif Require Import Base Locator ParseSize Number Properties_Locator NumberProofs Location LocationSpec LocationProofs1 LocationProofs2 LocationHeap LocationHeapProofs Origin OriginSpec OriginProofs1 OriginProofs2.
From Coq Require Import Sorting.Permutation.
Local Open Scope N_scope.

(** * Lists with holes *)
Section Holes.
Context {A : Type} (f : A -> list ptr).
Definition opt (x : option A) : list ptr := match x with Some a => f a | None => [] end.
Definition handles (l : list (option A)) : list ptr := concat (map opt l).
Lemma handles_app a b : handles (a ++ b) = handles a ++ handles b.
Proof. unfold handles. rewrite map_app, concat_app. reflexivity. Qed.
Lemma handles_set (l : list (option A)) i x : (i < length l)%nat -> Permutation (handles (set_nth l i x)) (opt x ++ handles (set_nth l i None)).
Proof.
  revert i. induction l as [|y l IH]; intros [|i] H; cbn [length] in H; try lia; cbn [set_nth]; unfold handles; cbn [map concat].
  - reflexivity.
  - fold (handles (set_nth l i x)). fold (handles (set_nth l i None)). rewrite (IH i) by lia. rewrite !app_assoc. apply Permutation_app_tail. apply Permutation_app_comm.
Qed.
Lemma set_nth_twice (l : list (option A)) i x y : set_nth (set_nth l i x) i y = set_nth l i y.
Proof. revert i. induction l as [|z l IH]; intros [|i]; cbn [set_nth]; auto. rewrite IH. reflexivity. Qed.
Lemma set_nth_id (l : list (option A)) i a : lget l i = Some a -> set_nth l i (Some a) = l.
Proof.
  unfold lget. revert i. induction l as [|z l IH]; intros [|i] H; cbn in *; try discriminate; [congruence|]. rewrite IH; auto.
Qed.
Lemma lget_lt (l : list (option A)) i a : lget l i = Some a -> (i < length l)%nat.
Proof. unfold lget. intros H. apply nth_error_Some. destruct (nth_error l i); congruence. Qed.
Lemma handles_pick l i a : lget l i = Some a -> Permutation (handles l) (f a ++ handles (set_nth l i None)).
Proof. intros H. rewrite <- (set_nth_id l i a H) at 1. apply (handles_set l i (Some a)). eapply lget_lt. exact H. Qed.
Lemma handles_incl l i a : lget l i = Some a -> incl (f a) (handles l).
Proof. intros H x X. eapply Permutation_in; [apply Permutation_sym, handles_pick; exact H|]. apply in_or_app. left. exact X. Qed.
Lemma lget_other (l : list (option A)) i j x : i <> j -> lget (set_nth l i x) j = lget l j.
Proof. intros H. unfold lget. rewrite set_nth_other by exact H. reflexivity. Qed.
End Holes.

Lemma Forall2_set {A B} (R : A -> B -> Prop) a b i x y : Forall2 R a b -> R x y -> Forall2 R (set_nth a i x) (set_nth b i y).
Proof. intros F. revert i. induction F as [|p q a b H F IH]; intros [|i] Hxy; cbn [set_nth]; constructor; auto. Qed.
Lemma Forall2_lget {A B} (R : option A -> option B -> Prop) a b i y : Forall2 R a b -> lget b i = Some y -> exists x, nth_error a i = Some x /\ R x (Some y).
Proof.
  intros F. revert i. unfold lget. induction F as [|p q a b H F IH]; intros [|i] E; cbn in *; try discriminate; [subst; eauto|]. apply IH. exact E.
Qed.

(** * The relation between the client of the code and the abstract one *)
Definition relp (h : heap) (x : option ptr) (y : option loc) : Prop :=
  match x, y with Some p, Some l => sees h p l /\ proper l | None, None => True | _, _ => False end.
Definition relo (h : heap) (x : option origin) (y : option (list source)) : Prop :=
  match x, y with Some o, Some s => exists ls, has_locs h o ls /\ all_sources ls = s | None, None => True | _, _ => False end.
Definition single (p : ptr) : list ptr := [p].
Definition hp (ps : list (option ptr)) : list ptr := handles single ps.
Definition ho (os : list (option origin)) : list ptr := handles items os.
Record rel (c : client) (w : world) : Prop := mkRel {
  r_held : held (mem c) (hp (ptrs c) ++ ho (orgs c));
  r_locs : Forall2 (relp (mem c)) (ptrs c) (locs w);
  r_origs : Forall2 (relo (mem c)) (orgs c) (origs w) }.

Lemma relp_keeps h h' xs ys : keeps (hp xs) h h' -> Forall2 (relp h) xs ys -> Forall2 (relp h') xs ys.
Proof.
  intros K F. induction F as [|x y xs ys H F IH]; constructor.
  - destruct x as [p|], y as [l|]; cbn in *; auto. destruct H as [S P]. split; [|exact P]. apply K; [left; reflexivity|exact S].
  - apply IH. eapply keeps_incl; [|exact K]. intros z Z. unfold hp, handles. cbn [map concat]. apply in_or_app. right. exact Z.
Qed.
Lemma relo_keeps h h' xs ys : keeps (ho xs) h h' -> Forall2 (relo h) xs ys -> Forall2 (relo h') xs ys.
Proof.
  intros K F. induction F as [|x y xs ys H F IH]; constructor.
  - destruct x as [o|], y as [s|]; cbn in *; auto. destruct H as (ls & L & E). exists ls. split; [|exact E]. eapply has_keeps; [|exact L].
    eapply keeps_incl; [|exact K]. intros z Z. unfold ho, handles. cbn [map concat]. apply in_or_app. left. exact Z.
  - apply IH. eapply keeps_incl; [|exact K]. intros z Z. unfold ho, handles. cbn [map concat]. apply in_or_app. right. exact Z.
Qed.
Lemma keeps_iff hs h h' : (forall q l, sees h' q l <-> sees h q l) -> keeps hs h h'.
Proof. intros H p l _ S. apply H. exact S. Qed.
Lemma keeps_app_l a b h h' : keeps (a ++ b) h h' -> keeps a h h'.
Proof. apply keeps_incl. intros x X. apply in_or_app. left. exact X. Qed.
Lemma keeps_app_r a b h h' : keeps (a ++ b) h h' -> keeps b h h'.
Proof. apply keeps_incl. intros x X. apply in_or_app. right. exact X. Qed.

Lemma get_ptr c w i l : rel c w -> lget (locs w) i = Some l -> exists p, lget (ptrs c) i = Some p /\ sees (mem c) p l /\ proper l.
Proof.
  intros R E. destruct (Forall2_lget _ _ _ i l (r_locs _ _ R) E) as (x & Ex & H). destruct x as [p|]; [|contradiction]. exists p. unfold lget. rewrite Ex. auto.
Qed.
Lemma get_orig c w a s : rel c w -> lget (origs w) a = Some s -> exists o ls, lget (orgs c) a = Some o /\ has_locs (mem c) o ls /\ all_sources ls = s.
Proof.
  intros R E. destruct (Forall2_lget _ _ _ a s (r_origs _ _ R) E) as (x & Ex & H). destruct x as [o|]; [|contradiction]. destruct H as (ls & L & El). exists o, ls. unfold lget. rewrite Ex. auto.
Qed.

(** The handles but one, and but those of one origin. *)
Lemma focus_ptr c w i p : rel c w -> lget (ptrs c) i = Some p -> held (mem c) (p :: hp (set_nth (ptrs c) i None) ++ ho (orgs c)).
Proof.
  intros R E. eapply held_perm; [|exact (r_held _ _ R)]. unfold hp. rewrite (handles_pick single _ _ _ E). reflexivity.
Qed.
Lemma focus_orig c w a o : rel c w -> lget (orgs c) a = Some o -> held (mem c) (items o ++ hp (ptrs c) ++ ho (set_nth (orgs c) a None)).
Proof.
  intros R E. eapply held_perm; [|exact (r_held _ _ R)]. unfold ho. rewrite (handles_pick items _ _ _ E). rewrite !app_assoc. apply Permutation_app_tail. apply Permutation_app_comm.
Qed.

Lemma back_ptr c w i p h' x y : rel c w -> lget (ptrs c) i = Some p -> held h' (opt single x ++ hp (set_nth (ptrs c) i None) ++ ho (orgs c)) ->
  keeps (hp (set_nth (ptrs c) i None) ++ ho (orgs c)) (mem c) h' -> relp h' x y ->
  rel (mkClient h' (set_nth (ptrs c) i x) (orgs c)) (with_loc w i y).
Proof.
  intros R E H K X. constructor; cbn [mem ptrs orgs locs origs with_loc].
  - eapply held_perm; [|exact H]. unfold hp. rewrite (handles_set single (ptrs c) i x) by (eapply lget_lt; exact E). rewrite app_assoc. reflexivity.
  - rewrite <- (set_nth_twice (ptrs c) i None), <- (set_nth_twice (locs w) i None). apply Forall2_set; [|exact X]. eapply relp_keeps; [apply keeps_app_l in K; exact K|].
    apply Forall2_set; [apply (r_locs _ _ R)|exact Logic.I].
  - eapply relo_keeps; [apply keeps_app_r in K; exact K|]. apply (r_origs _ _ R).
Qed.
Lemma back_orig c w a o h' x y : rel c w -> lget (orgs c) a = Some o -> held h' (opt items x ++ hp (ptrs c) ++ ho (set_nth (orgs c) a None)) ->
  keeps (hp (ptrs c) ++ ho (set_nth (orgs c) a None)) (mem c) h' -> relo h' x y ->
  rel (mkClient h' (ptrs c) (set_nth (orgs c) a x)) (with_orig w a y).
Proof.
  intros R E H K X. constructor; cbn [mem ptrs orgs locs origs with_orig].
  - eapply held_perm; [|exact H]. unfold ho. rewrite (handles_set items (orgs c) a x) by (eapply lget_lt; exact E). rewrite !app_assoc. apply Permutation_app_tail. apply Permutation_app_comm.
  - eapply relp_keeps; [apply keeps_app_l in K; exact K|]. apply (r_locs _ _ R).
  - rewrite <- (set_nth_twice (orgs c) a None), <- (set_nth_twice (origs w) a None). apply Forall2_set; [|exact X]. eapply relo_keeps; [apply keeps_app_r in K; exact K|].
    apply Forall2_set; [apply (r_origs _ _ R)|exact Logic.I].
Qed.
(** The pointer stays, the heap changes unnoticed. *)
Lemma back_same c w i p h' l : rel c w -> lget (ptrs c) i = Some p -> lget (locs w) i = Some l -> forall p', held h' (p' :: hp (set_nth (ptrs c) i None) ++ ho (orgs c)) ->
  keeps (hp (set_nth (ptrs c) i None) ++ ho (orgs c)) (mem c) h' -> sees h' p' l -> proper l -> rel (mkClient h' (set_nth (ptrs c) i (Some p')) (orgs c)) w.
Proof.
  intros R E El p' H K S P. pose proof (back_ptr c w i p h' (Some p') (Some l) R E H K (conj S P)) as B. unfold with_loc in B. rewrite (set_nth_id (locs w) i l El) in B.
  destruct w; exact B.
Qed.
Lemma back_same_orig c w a o h' s : rel c w -> lget (orgs c) a = Some o -> lget (origs w) a = Some s -> forall o' ls, held h' (items o' ++ hp (ptrs c) ++ ho (set_nth (orgs c) a None)) ->
  keeps (hp (ptrs c) ++ ho (set_nth (orgs c) a None)) (mem c) h' -> has_locs h' o' ls -> all_sources ls = s -> rel (mkClient h' (ptrs c) (set_nth (orgs c) a (Some o'))) w.
Proof.
  intros R E Es o' ls H K L Els. pose proof (back_orig c w a o h' (Some o') (Some s) R E H K (ex_intro _ ls (conj L Els))) as B. unfold with_orig in B.
  rewrite (set_nth_id (origs w) a s Es) in B. destruct w; exact B.
Qed.

Lemma in_hp ps i p : lget ps i = Some p -> In p (hp ps).
Proof. intros E. eapply handles_incl; [exact E|]. left. reflexivity. Qed.

Lemma snd_object a b : snd (object_of a) = snd (object_of b) <-> stamp a = stamp b.
Proof. reflexivity. Qed.
Lemma proper_root r l : proper l -> proper (set_root r l).
Proof. intros [A B C D E]. constructor; auto. Qed.

Lemma simulate1 c w x w' a : rel c w -> step w x w' a -> exists c', run1 c x = Some (c', a) /\ rel c' w'.
Proof.
  intros R S. destruct S.
  - (* Make *)
    cbn [run1]. destruct (alloc_ok (mem c) _ l (r_held _ _ R)) as (E & H1 & S1 & _ & K1). rewrite E. eexists. split; [reflexivity|].
    constructor; cbn [mem ptrs orgs locs origs].
    + eapply held_perm; [|exact H1]. unfold hp. rewrite handles_app. cbn. rewrite <- app_assoc. apply Permutation_middle.
    + apply Forall2_app; [eapply relp_keeps; [|apply (r_locs _ _ R)]; intros q b _ X; apply K1; exact X|]. constructor; [split; assumption|constructor].
    + eapply relo_keeps; [|apply (r_origs _ _ R)]. intros q b _ X. apply K1. exact X.
  - (* Share *)
    destruct (get_ptr c w i l R H) as (p & E & Sp & P). cbn [run1]. rewrite E.
    destruct (ref_ok (mem c) _ p (r_held _ _ R)) as (h' & E1 & H1 & S1); [apply in_or_app; left; eapply in_hp; exact E|]. rewrite E1. eexists. split; [reflexivity|].
    constructor; cbn [mem ptrs orgs locs origs].
    + eapply held_perm; [|exact H1]. unfold hp. rewrite handles_app. cbn. rewrite <- app_assoc. apply Permutation_middle.
    + apply Forall2_app; [eapply relp_keeps; [|apply (r_locs _ _ R)]; apply keeps_iff; exact S1|]. constructor; [split; [apply S1; exact Sp|exact P]|constructor].
    + eapply relo_keeps; [|apply (r_origs _ _ R)]. apply keeps_iff. exact S1.
  - (* Drop *)
    destruct (get_ptr c w i l R H) as (p & E & Sp & P). cbn [run1]. rewrite E.
    destruct (unref_ok (mem c) _ p (focus_ptr c w i p R E)) as (h' & E1 & H1 & S1). rewrite E1. eexists. split; [reflexivity|].
    eapply back_ptr; [exact R|exact E|exact H1|apply keeps_iff; exact S1|exact Logic.I].
  - (* Resize *)
    destruct (get_ptr c w i l R H) as (p & E & Sp & P). cbn [run1]. unfold on_ptr. rewrite E.
    destruct (patch_size_ok (mem c) _ p l s (focus_ptr c w i p R E) Sp P) as (k & p' & h' & E1 & -> & H1 & S1 & K1). rewrite E1. eexists. split; [reflexivity|].
    eapply back_ptr; [exact R|exact E|exact H1|exact K1|]. split; assumption.
  - (* Reroot *)
    destruct (get_ptr c w i l R H) as (p & E & Sp & P). cbn [run1]. unfold on_ptr. rewrite E.
    destruct (patch_root_ok (mem c) _ p l r (focus_ptr c w i p R E) Sp P) as (p' & h' & E1 & H1 & S1 & K1). rewrite E1. eexists. split; [reflexivity|].
    eapply back_ptr; [exact R|exact E|exact H1|exact K1|]. split; [exact S1|apply proper_root; exact P].
  - (* Advance by nothing *)
    destruct (get_ptr c w i l R H) as (p & E & Sp & P). cbn [run1]. unfold on_ptr. rewrite E.
    destruct (advance_ok (mem c) _ p l 0 (focus_ptr c w i p R E) Sp P) as (k & p' & h' & E1 & H1 & K1 & Res). rewrite E1. destruct Res as [-> Res]. eexists. split; [reflexivity|].
    eapply back_same; eauto.
  - (* Advance *)
    destruct (get_ptr c w i l R H) as (p & E & Sp & P). cbn [run1]. unfold on_ptr. rewrite E.
    destruct (advance_ok (mem c) _ p l n (focus_ptr c w i p R E) Sp P) as (k & p' & h' & E1 & H1' & K1 & Res). rewrite E1.
    destruct (N.eqb_spec n 0); [congruence|].
    assert (F : negb (size l =? UINT64_MAX) && (size l <? n) = false).
    { destruct H3 as [-> | X]; [reflexivity|]. apply andb_false_iff. right. apply N.ltb_ge. lia. }
    rewrite F in Res. destruct Res as [-> Res]. rewrite moved_advanced in Res by assumption. eexists. split; [reflexivity|].
    eapply back_ptr; [exact R|exact E|exact H1'|exact K1|]. split; assumption.
  - (* Advance too far *)
    destruct (get_ptr c w i l R H) as (p & E & Sp & P). cbn [run1]. unfold on_ptr. rewrite E.
    destruct (advance_ok (mem c) _ p l n (focus_ptr c w i p R E) Sp P) as (k & p' & h' & E1 & H1' & K1 & Res). rewrite E1.
    destruct (N.eqb_spec n 0); [lia|]. destruct (N.eqb_spec (size l) UINT64_MAX); [congruence|]. destruct (N.ltb_spec (size l) n); [|lia]. cbn [negb andb] in Res.
    destruct Res as [-> Res]. eexists. split; [reflexivity|]. eapply back_same; eauto.
  - (* Merge *)
    destruct (get_ptr c w i a R H) as (p & E & Sp & P). destruct (get_ptr c w j b R H0) as (q & Eq & Sq & Pq). cbn [run1]. rewrite Eq. unfold on_ptr. rewrite E.
    assert (Iq : In q (hp (set_nth (ptrs c) i None) ++ ho (orgs c))) by (apply in_or_app; left; apply (in_hp _ j); rewrite lget_other by congruence; exact Eq).
    destruct (merge_ok (mem c) _ p q a b (focus_ptr c w i p R E) Sp P Iq Sq) as (k & p' & h' & E1 & H1' & K1 & Res); [lia|lia|]. rewrite E1.
    assert (Em : mergeable a b = true).
    { apply mergeable_iff. repeat (split; [assumption|]). split; [|apply snd_object; assumption]. destruct H11 as [X|X]; [left; exact X|right].
      rewrite N.mod_small; [exact X|]. destruct (p_size _ P) as [_ [Y|Y]]; [lia|]. unfold UINT64_MAX, two64 in *. lia. }
    rewrite Em in Res. destruct Res as [-> Res]. eexists. split; [reflexivity|].
    assert (Es : (size a + size b) mod two64 = size a + size b). { apply N.mod_small. rewrite H4 in H6. cbn [resized size] in H6. unfold UINT64_MAX, two64 in *. lia. }
    rewrite Es in Res. change (set_size (size a + size b) a) with (resized (size a + size b) a) in Res. rewrite <- H4 in Res. eapply back_ptr; [exact R|exact E|exact H1'|exact K1|]. split; assumption.
  - (* Merge refused *)
    destruct (get_ptr c w i a R H) as (p & E & Sp & P). destruct (get_ptr c w j b R H0) as (q & Eq & Sq & Pq). cbn [run1]. rewrite Eq. unfold on_ptr. rewrite E.
    assert (Iq : In q (hp (set_nth (ptrs c) i None) ++ ho (orgs c))) by (apply in_or_app; left; apply (in_hp _ j); rewrite lget_other by congruence; exact Eq).
    destruct (merge_ok (mem c) _ p q a b (focus_ptr c w i p R E) Sp P Iq Sq) as (k & p' & h' & E1 & H1' & K1 & Res); [lia|lia|]. rewrite E1.
    assert (Em : mergeable a b = false).
    { apply not_true_is_false. intros Em. apply H4. apply mergeable_iff in Em. destruct Em as (M1 & M2 & M3 & M4 & M5). repeat (split; [assumption|]).
      destruct M4 as [X|X]; [left; exact X|right]. rewrite N.mod_small in X; [exact X|]. destruct (p_size _ P) as [_ [Y|Y]]; [lia|]. unfold UINT64_MAX, two64 in *. lia. }
    rewrite Em in Res. destruct Res as (-> & Res & ->). eexists. split; [reflexivity|]. eapply back_same; eauto.
  - (* Show *)
    destruct (get_ptr c w i l R H) as (p & E & Sp & P). cbn [run1]. rewrite E.
    destruct (format_ok (mem c) _ p l f (r_held _ _ R)) as (h' & E1 & H1 & S1); [apply in_or_app; left; eapply in_hp; exact E|exact Sp|]. rewrite E1. eexists. split; [reflexivity|].
    constructor; cbn [mem ptrs orgs].
    + exact H1.
    + eapply relp_keeps; [|apply (r_locs _ _ R)]. apply keeps_iff. exact S1.
    + eapply relo_keeps; [|apply (r_origs _ _ R)]. apply keeps_iff. exact S1.
  - (* ONew *)
    cbn [run1]. eexists. split; [reflexivity|]. constructor; cbn [mem ptrs orgs locs origs].
    + unfold ho. rewrite handles_app. cbn. rewrite app_nil_r. apply (r_held _ _ R).
    + apply (r_locs _ _ R).
    + apply Forall2_app; [apply (r_origs _ _ R)|]. constructor; [|constructor]. exists []. split; [constructor; cbn; auto; reflexivity|reflexivity].
  - (* ODrop *)
    destruct (get_orig c w a x R H) as (o & ls & E & L & El). cbn [run1]. rewrite E.
    destruct (flush_ok (mem c) _ o (focus_orig c w a o R E)) as (h' & E1 & H1 & S1). rewrite E1. eexists. split; [reflexivity|].
    eapply back_orig; [exact R|exact E|exact H1|apply keeps_iff; exact S1|exact Logic.I].
  - (* OFlush *)
    destruct (get_orig c w a x R H) as (o & ls & E & L & El). cbn [run1]. rewrite E.
    destruct (flush_ok (mem c) _ o (focus_orig c w a o R E)) as (h' & E1 & H1 & S1). rewrite E1. eexists. split; [reflexivity|].
    eapply back_orig; [exact R|exact E|exact H1|apply keeps_iff; exact S1|]. exists []. split; [constructor; cbn; auto; reflexivity|reflexivity].
  - (* OPut *)
    destruct (get_orig c w a x R H) as (o & ls & E & L & El). destruct (get_ptr c w i l R H0) as (q & Eq & Sq & Pq). cbn [run1]. rewrite Eq. unfold on_orig. rewrite E.
    destruct (put_ok (mem c) _ o q ls l (focus_orig c w a o R E) L) as (o' & h' & ls' & E1 & H1' & L1 & S1 & K1);
      [apply in_or_app; left; eapply in_hp; exact Eq|exact Sq|split; assumption|rewrite El; assumption|]. rewrite E1. eexists. split; [reflexivity|].
    eapply back_orig; [exact R|exact E|exact H1'|exact K1|]. exists ls'. split; [exact L1|rewrite S1, El; reflexivity].
  - (* OPut, size unknown *)
    destruct (get_orig c w a x R H) as (o & ls & E & L & El). destruct (get_ptr c w i l R H0) as (q & Eq & Sq & Pq). cbn [run1]. rewrite Eq. unfold on_orig. rewrite E.
    destruct (rd_ok (mem c) _ q l (r_held _ _ R)) as (y & Ry & Vy & _); [apply in_or_app; left; eapply in_hp; exact Eq|exact Sq|].
    unfold put, mbind at 1. rewrite Ry, Vy, H1. change (UINT64_MAX =? UINT64_MAX) with true. unfold mret. eexists. split; [reflexivity|].
    eapply back_same_orig; [exact R|exact E|exact H|exact (focus_orig c w a o R E)|apply keeps_refl|exact L|exact El].
  - (* OPutVoid *)
    destruct (get_orig c w a x R H) as (o & ls & E & L & El). cbn [run1]. unfold on_orig. rewrite E.
    destruct (put_void_ok (mem c) _ o ls n (focus_orig c w a o R E) L) as (o' & h' & ls' & E1 & H1' & L1 & K1 & S1); [rewrite El; assumption|]. rewrite E1. eexists. split; [reflexivity|].
    eapply back_orig; [exact R|exact E|exact H1'|exact K1|]. exists ls'. split; [exact L1|rewrite S1, El; reflexivity].
  - (* OConcat *)
    destruct (get_orig c w a x R H) as (o & ls & E & L & El). destruct (get_orig c w b y R H0) as (o2 & ls2 & E2 & L2 & El2). cbn [run1]. rewrite E2. unfold on_orig. rewrite E.
    assert (Hm : (n =? UINT64_MAX) = false) by (apply N.eqb_neq; pose proof (hl_small _ _ _ L2); rewrite El2 in *; lia).
    destruct (concat_ok (mem c) _ o (if Nat.eqb a b then None else Some o2) ls ls2 n (focus_orig c w a o R E) L) as (r & o' & h' & ls' & E1 & H1' & L1 & K1 & Res).
    { destruct (Nat.eqb_spec a b) as [->|D].
      - rewrite E in E2. injection E2 as <-. pose proof (hl_sees _ _ _ L) as F1. pose proof (hl_sees _ _ _ L2) as F2. clear -F1 F2. revert ls2 F2.
        induction F1 as [|p l ps ls S F1 IH]; intros ls2 F2; inversion F2; subst; [reflexivity|]. f_equal; [eapply sees_fun; eassumption|apply IH; assumption].
      - split; [|exact L2]. intros z Z. apply in_or_app. right. eapply (handles_incl items); [|exact Z]. rewrite lget_other by exact D. exact E2. }
    { lia. }
    { intros _. rewrite El, El2. unfold cut_to. rewrite Hm, len_takeN. lia. }
    rewrite El, El2 in Res. unfold cut_to in Res. rewrite Hm in Res.
    assert ((len y <? n) = false) as Hl by (apply N.ltb_ge; assumption). rewrite Hl in Res. cbn [andb] in Res. destruct Res as [-> Es]. rewrite E1. eexists. split; [|].
    { rewrite len_takeN, N.min_l by assumption. reflexivity. }
    eapply back_orig; [exact R|exact E|exact H1'|exact K1|]. exists ls'. split; [exact L1|exact Es].
  - (* OConcat of everything *)
    destruct (get_orig c w a x R H) as (o & ls & E & L & El). destruct (get_orig c w b y R H0) as (o2 & ls2 & E2 & L2 & El2). cbn [run1]. rewrite E2. unfold on_orig. rewrite E.
    destruct (concat_ok (mem c) _ o (if Nat.eqb a b then None else Some o2) ls ls2 UINT64_MAX (focus_orig c w a o R E) L) as (r & o' & h' & ls' & E1 & H1' & L1 & K1 & Res).
    { destruct (Nat.eqb_spec a b) as [->|D].
      - rewrite E in E2. injection E2 as <-. pose proof (hl_sees _ _ _ L) as F1. pose proof (hl_sees _ _ _ L2) as F2. clear -F1 F2. revert ls2 F2.
        induction F1 as [|p l ps ls S F1 IH]; intros ls2 F2; inversion F2; subst; [reflexivity|]. f_equal; [eapply sees_fun; eassumption|apply IH; assumption].
      - split; [|exact L2]. intros z Z. apply in_or_app. right. eapply (handles_incl items); [|exact Z]. rewrite lget_other by exact D. exact E2. }
    { lia. }
    { intros _. rewrite El, El2. unfold cut_to. change (UINT64_MAX =? UINT64_MAX) with true. cbv iota. assumption. }
    rewrite El, El2 in Res. unfold cut_to in Res. change (UINT64_MAX =? UINT64_MAX) with true in Res. cbn [negb] in Res. rewrite andb_false_r in Res. destruct Res as [-> Es]. rewrite E1. eexists. split; [reflexivity|].
    eapply back_orig; [exact R|exact E|exact H1'|exact K1|]. exists ls'. split; [exact L1|exact Es].
  - (* OConcat of too much *)
    destruct (get_orig c w a x R H) as (o & ls & E & L & El). destruct (get_orig c w b y R H0) as (o2 & ls2 & E2 & L2 & El2). cbn [run1]. rewrite E2. unfold on_orig. rewrite E.
    assert (Hm : (n =? UINT64_MAX) = false) by (apply N.eqb_neq; lia).
    assert (Ho : n_bytes (match (if Nat.eqb a b then None else Some o2) with Some z => z | None => o end) = len y).
    { destruct (Nat.eqb_spec a b) as [->|D]; [rewrite E in E2; injection E2 as <-|]; rewrite (hl_bytes _ _ _ L2), El2; reflexivity. }
    unfold origin_concat. rewrite Ho, Hm. destruct (N.eqb_spec n 0); [lia|]. destruct (N.ltb_spec (len y) n); [|lia]. cbn [negb andb]. unfold mret. eexists. split; [reflexivity|].
    eapply back_same_orig; [exact R|exact E|exact H|exact (focus_orig c w a o R E)|apply keeps_refl|exact L|exact El].
  - (* OAdvance *)
    destruct (get_orig c w a x R H) as (o & ls & E & L & El). cbn [run1]. unfold on_orig. rewrite E.
    destruct (advance_bytes_ok (mem c) _ o ls n (focus_orig c w a o R E) L) as (r & o' & h' & ls' & E1 & H1' & L1 & K1 & Res). rewrite E1. rewrite El in Res.
    destruct (N.ltb_spec (len x) n); [lia|]. destruct Res as [-> Es]. eexists. split; [reflexivity|]. eapply back_orig; [exact R|exact E|exact H1'|exact K1|]. exists ls'. split; [exact L1|exact Es].
  - (* OAdvance too far *)
    destruct (get_orig c w a x R H) as (o & ls & E & L & El). cbn [run1]. unfold on_orig. rewrite E.
    destruct (advance_bytes_ok (mem c) _ o ls n (focus_orig c w a o R E) L) as (r & o' & h' & ls' & E1 & H1' & L1 & K1 & Res). rewrite E1. rewrite El in Res.
    destruct (N.ltb_spec (len x) n); [|lia]. destruct Res as [-> Es]. eexists. split; [reflexivity|]. eapply back_same_orig; [exact R|exact E|exact H|exact H1'|exact K1|exact L1|exact Es].
  - (* OExtract *)
    destruct (get_orig c w a x R H) as (o & ls & E & L & El). cbn [run1]. rewrite E. pose proof (hl_small _ _ _ L) as Sm. rewrite El in Sm.
    destruct (extract_ok (mem c) _ o ls n (r_held _ _ R)) as (r & h' & E1 & K1 & Res); [intros z Z; apply in_or_app; right; eapply handles_incl; eassumption|exact L|destruct H1; lia|].
    rewrite E1, El in *. destruct (N.eqb_spec n 0); [congruence|].
    assert (F : (len x <? n) && negb (n =? UINT64_MAX) = false).
    { destruct H1 as [X | ->]; [|apply andb_false_r]. apply andb_false_iff. left. apply N.ltb_ge. exact X. }
    rewrite F in Res. destruct Res as (t & ls2 & -> & H2 & L2 & Es). eexists. split; [reflexivity|]. constructor; cbn [mem ptrs orgs locs origs].
    + eapply held_perm; [|exact H2]. assert (Eh : ho (orgs c ++ [Some t]) = ho (orgs c) ++ items t).
      { unfold ho. rewrite handles_app. f_equal. unfold handles. cbn [map concat opt]. apply app_nil_r. }
      rewrite Eh, (app_assoc (hp (ptrs c))). apply Permutation_app_comm.
    + eapply relp_keeps; [apply keeps_app_l in K1; exact K1|apply (r_locs _ _ R)].
    + apply Forall2_app; [eapply relo_keeps; [apply keeps_app_r in K1; exact K1|apply (r_origs _ _ R)]|]. constructor; [|constructor]. exists ls2. auto.
  - (* OExtract of nothing *)
    destruct (get_orig c w a x R H) as (o & ls & E & L & El). cbn [run1]. rewrite E. unfold extract_bytes. change (0 =? 0) with true. unfold mret. eexists. split; [reflexivity|]. destruct c; exact R.
  - (* OExtract too far *)
    destruct (get_orig c w a x R H) as (o & ls & E & L & El). cbn [run1]. rewrite E.
    destruct (extract_ok (mem c) _ o ls n (r_held _ _ R)) as (r & h' & E1 & K1 & Res); [intros z Z; apply in_or_app; right; eapply handles_incl; eassumption|exact L|lia|].
    rewrite E1, El in *. destruct (N.eqb_spec n 0); [lia|]. destruct (N.ltb_spec (len x) n); [|lia]. destruct (N.eqb_spec n UINT64_MAX); [lia|]. cbn [negb andb] in Res.
    destruct Res as [-> H2x]. eexists. split; [reflexivity|]. constructor; cbn [mem ptrs orgs].
    + exact H2x.
    + eapply relp_keeps; [apply keeps_app_l in K1; exact K1|apply (r_locs _ _ R)].
    + eapply relo_keeps; [apply keeps_app_r in K1; exact K1|apply (r_origs _ _ R)].
  - (* OBytes *)
    destruct (get_orig c w a x R H) as (o & ls & E & L & El). cbn [run1]. rewrite E. exists c. split; [rewrite (hl_bytes _ _ _ L), El; reflexivity|exact R].
Qed.

Lemma simulate : forall ops c w w' answers, rel c w -> steps w ops w' answers -> exists c', run c ops = Some (c', answers) /\ rel c' w'.
Proof.
  induction ops as [|x ops IH]; intros c w w' answers R S; inversion S; subst; cbn [run].
  - eauto.
  - destruct (simulate1 c w x w1 a R) as (c1 & E1 & R1); [assumption|]. rewrite E1. destruct (IH c1 w1 w' answers0 R1) as (c2 & E2 & R2); [assumption|]. rewrite E2. eauto.
Qed.

Lemma rel_value c w p l : rel c w -> In p (hp (ptrs c) ++ ho (orgs c)) -> sees (mem c) p l -> value (mem c) p = Some l.
Proof.
  intros R I S. destruct (rd_ok (mem c) _ p l (r_held _ _ R) I S) as (o & Rd & V & E & _). unfold value. rewrite E. unfold rd in Rd. rewrite E in Rd.
  destruct (n_ref o =? 0); [discriminate|]. rewrite V. reflexivity.
Qed.
Lemma rel_shows c w : rel c w -> shows c w /\ no_leak c.
Proof.
  intros R. split; [split|].
  - assert (G : forall ps ls, incl (hp ps) (hp (ptrs c)) -> Forall2 (relp (mem c)) ps ls -> map (fun x => match x with Some p => value (mem c) p | None => None end) ps = ls).
    { intros ps ls I F. induction F as [|x y ps ls H F IH]; cbn [map]; [reflexivity|]. f_equal.
      - destruct x as [p|], y as [l|]; cbn in H; try contradiction; [|reflexivity]. destruct H as [S _]. eapply rel_value; [exact R| |exact S]. apply in_or_app. left. apply I. left. reflexivity.
      - apply IH. intros z Z. apply I. unfold hp, handles. cbn [map concat]. apply in_or_app. right. exact Z. }
    apply G; [intros z Z; exact Z|apply (r_locs _ _ R)].
  - assert (G : forall os ss, incl (ho os) (ho (orgs c)) -> Forall2 (relo (mem c)) os ss -> Forall2 (fun x y => match x, y with
                         | None, None => True
                         | Some o, Some s => exists ls, map (value (mem c)) (items o) = map Some ls /\ concat (map sources ls) = s /\ n_bytes o = len s
                         | _, _ => False
                         end) os ss).
    { intros os ss I F. induction F as [|x y os ss H F IH]; constructor.
      - destruct x as [o|], y as [s|]; cbn in H; try contradiction; [|exact Logic.I]. destruct H as (ls & L & El). exists ls. split; [|split; [exact El|rewrite (hl_bytes _ _ _ L), El; reflexivity]].
        assert (Io : incl (items o) (ho (orgs c))) by (intros z Z; apply I; unfold ho, handles; cbn [map concat opt]; apply in_or_app; left; exact Z).
        pose proof (hl_sees _ _ _ L) as Fs. clear L El IH I. revert Io. induction Fs as [|p l ps ls S Fs IHs]; intros Io; cbn [map]; [reflexivity|]. f_equal.
        + eapply rel_value; [exact R| |exact S]. apply in_or_app. right. apply Io. left. reflexivity.
        + apply IHs. intros z Z. apply Io. right. exact Z.
      - apply IH. intros z Z. apply I. unfold ho, handles. cbn [map concat]. apply in_or_app. right. exact Z. }
    apply G; [intros z Z; exact Z|apply (r_origs _ _ R)].
  - intros p V. pose proof (r_held _ _ R p) as H. unfold value in V. destruct (nth_error (mem c) p) as [o|]; [|congruence]. destruct H as [N _].
    destruct (N.eqb_spec (n_ref o) 0); [congruence|]. assert (I : In p (hp (ptrs c) ++ ho (orgs c))) by (apply (count_occ_In Nat.eq_dec); unfold cnt in N; lia).
    apply in_app_iff in I. destruct I as [I|I]; [left|right]; unfold hp, ho, handles in I; apply in_concat in I; destruct I as (q & Q & Iq); apply in_map_iff in Q; destruct Q as (x & <- & Ix).
    + destruct x as [p'|]; [|destruct Iq]. destruct Iq as [<-|[]]. exact Ix.
    + destruct x as [o'|]; [|destruct Iq]. exists o'. auto.
Qed.
