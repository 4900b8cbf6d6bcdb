From Verif Require Import Base Locator ParseSize Number Properties_Locator NumberProofs Location LocationSpec LocationProofs1 LocationProofs2 LocationHeap.
From Coq Require Import Sorting.Permutation.
Local Open Scope N_scope.

Lemma set_nth_same {A} (l : list A) i x : (i < length l)%nat -> nth_error (set_nth l i x) i = Some x.
Proof. revert i. induction l as [|y l IH]; intros [|i] H; cbn in *; try lia; auto. apply IH. lia. Qed.
Lemma set_nth_other {A} (l : list A) i j x : i <> j -> nth_error (set_nth l i x) j = nth_error l j.
Proof. revert i j. induction l as [|y l IH]; intros [|i] [|j] H; cbn in *; try congruence; auto. Qed.
Lemma set_nth_length {A} (l : list A) i x : length (set_nth l i x) = length l.
Proof. revert i. induction l as [|y l IH]; intros [|i]; cbn; auto. Qed.

Definition cnt (hs : list ptr) (p : ptr) : nat := count_occ Nat.eq_dec hs p.

(** The cached text is what would be computed. *)
Definition coherent (o : obj) : Prop := match formatted o with Some (t, w) => t = location_format (val o) w | None => True end.

(** Every object is counted once per handle; so what no handle refers to is freed. *)
Definition held (h : heap) (hs : list ptr) : Prop :=
  forall p, match nth_error h p with
            | Some o => n_ref o = N.of_nat (cnt hs p) /\ coherent o
            | None => cnt hs p = O
            end.
Definition sees (h : heap) (p : ptr) (l : loc) : Prop := exists o, nth_error h p = Some o /\ val o = l.
Definition keeps (hs : list ptr) (h h' : heap) : Prop := forall p l, In p hs -> sees h p l -> sees h' p l.

Lemma sees_fun h p a b : sees h p a -> sees h p b -> a = b.
Proof. intros (x & E & <-) (y & E' & <-). congruence. Qed.
Lemma keeps_refl hs h : keeps hs h h.
Proof. intros p l _ H. exact H. Qed.
Lemma keeps_trans hs h1 h2 h3 : keeps hs h1 h2 -> keeps hs h2 h3 -> keeps hs h1 h3.
Proof. intros A B p l H S. apply B; [exact H|]. apply A; assumption. Qed.
Lemma keeps_incl hs hs' h h' : incl hs' hs -> keeps hs h h' -> keeps hs' h h'.
Proof. intros I K p l H S. apply K; auto. Qed.

Lemma held_perm h hs hs' : Permutation hs hs' -> held h hs -> held h hs'.
Proof.
  intros P H p. specialize (H p). assert (E : cnt hs' p = cnt hs p) by (unfold cnt; symmetry; apply (proj1 (Permutation_count_occ Nat.eq_dec hs hs') P)).
  rewrite E. exact H.
Qed.
Lemma held_in h hs p : held h hs -> In p hs -> exists o, nth_error h p = Some o /\ n_ref o <> 0 /\ coherent o /\ (p < length h)%nat.
Proof.
  intros H I. specialize (H p). apply (count_occ_In Nat.eq_dec) in I. fold (cnt hs p) in I.
  destruct (nth_error h p) as [o|] eqn:E; [|lia]. destruct H as [R C]. exists o. repeat split; auto; [lia|]. apply nth_error_Some. congruence.
Qed.
Lemma held_sees h hs p : held h hs -> In p hs -> exists l, sees h p l.
Proof. intros H I. destruct (held_in h hs p H I) as (o & E & _). exists (val o), o. auto. Qed.

Lemma rd_ok h hs p l : held h hs -> In p hs -> sees h p l ->
  exists o, rd p h = Some (o, h) /\ val o = l /\ nth_error h p = Some o /\ coherent o /\ n_ref o = N.of_nat (cnt hs p).
Proof.
  intros H I (o & E & V). destruct (held_in h hs p H I) as (o' & E' & R & C & _). rewrite E in E'. injection E' as <-. exists o.
  unfold rd. rewrite E. apply N.eqb_neq in R. rewrite R. specialize (H p). rewrite E in H. intuition.
Qed.

Lemma cnt_cons p hs q : cnt (p :: hs) q = ((if Nat.eq_dec p q then 1 else 0) + cnt hs q)%nat.
Proof. unfold cnt. cbn [count_occ]. destruct (Nat.eq_dec p q); lia. Qed.

Lemma ref_ok h hs p : held h hs -> In p hs ->
  exists h', ref p h = Some (tt, h') /\ held h' (p :: hs) /\ (forall q l, sees h' q l <-> sees h q l).
Proof.
  intros H I. destruct (held_sees h hs p H I) as [l S]. destruct (rd_ok h hs p l H I S) as (o & R & V & E & C & N).
  unfold ref, mbind. rewrite R. unfold wr. eexists. split; [reflexivity|].
  assert (L : (p < length h)%nat) by (apply nth_error_Some; congruence). split.
  - intros q. rewrite cnt_cons. destruct (Nat.eq_dec p q) as [<-|D].
    + rewrite set_nth_same by exact L. cbn [n_ref]. split; [rewrite N; lia|exact C].
    + rewrite set_nth_other by exact D. exact (H q).
  - intros q l'. unfold sees. destruct (Nat.eq_dec p q) as [<-|D].
    + rewrite set_nth_same by exact L. rewrite E. split; intros (x & X & <-); injection X as <-; eauto.
    + rewrite set_nth_other by exact D. reflexivity.
Qed.

Lemma unref_ok h hs p : held h (p :: hs) ->
  exists h', unref p h = Some (tt, h') /\ held h' hs /\ (forall q l, sees h' q l <-> sees h q l).
Proof.
  intros H. assert (I : In p (p :: hs)) by (left; reflexivity).
  destruct (held_sees h _ p H I) as [l S]. destruct (rd_ok h _ p l H I S) as (o & R & V & E & C & N).
  unfold unref, mbind. rewrite R. unfold wr. eexists. split; [reflexivity|].
  assert (L : (p < length h)%nat) by (apply nth_error_Some; congruence). split.
  - intros q. specialize (H q). rewrite cnt_cons in H, N. destruct (Nat.eq_dec p q) as [<-|D].
    + rewrite set_nth_same by exact L. cbn [n_ref]. destruct (Nat.eq_dec p p); [|congruence]. split; [rewrite N; lia|exact C].
    + rewrite set_nth_other by exact D. exact H.
  - intros q l'. unfold sees. destruct (Nat.eq_dec p q) as [<-|D].
    + rewrite set_nth_same by exact L. rewrite E. split; intros (x & X & <-); injection X as <-; eauto.
    + rewrite set_nth_other by exact D. reflexivity.
Qed.

Lemma alloc_ok h hs l : held h hs -> alloc l h = Some (length h, h ++ [mkObj 1 l None]) /\ held (h ++ [mkObj 1 l None]) (length h :: hs) /\
  sees (h ++ [mkObj 1 l None]) (length h) l /\ cnt hs (length h) = O /\ (forall q a, sees h q a -> sees (h ++ [mkObj 1 l None]) q a).
Proof.
  intros H. split; [reflexivity|]. assert (Z : cnt hs (length h) = O).
  { specialize (H (length h)). rewrite (proj2 (nth_error_None h (length h))) in H by lia. exact H. }
  split; [|split; [|split; [exact Z|]]].
  - intros q. rewrite cnt_cons. destruct (Nat.eq_dec (length h) q) as [<-|D].
    + rewrite nth_error_app2 by lia. rewrite Nat.sub_diag. cbn. rewrite Z. split; [reflexivity|exact I].
    + destruct (Nat.lt_ge_cases q (length h)).
      * rewrite nth_error_app1 by assumption. exact (H q).
      * rewrite (proj2 (nth_error_None _ q)) by (rewrite app_length; cbn; lia). specialize (H q). rewrite (proj2 (nth_error_None h q)) in H by lia. exact H.
  - exists (mkObj 1 l None). rewrite nth_error_app2 by lia. rewrite Nat.sub_diag. auto.
  - intros q a (o & E & V). exists o. split; [|exact V]. rewrite nth_error_app1; [exact E|]. apply nth_error_Some. congruence.
Qed.

(** A proper location can be copied. *)
Lemma copy_proper l : proper l -> location_copy l = Ok l.
Proof.
  intros P. unfold location_copy, location_new. pose proof (p_kind _ P) as K. apply kind_iff in K. rewrite K. cbn [negb].
  assert (Hp : negb (isempty (path l)) && (at_ (strempty (path l)) 0 =? 47) = false).
  { destruct (path l) as [p|] eqn:E; [|reflexivity]. destruct (p_path _ P p E) as [Hn Hs]. destruct p as [|c p]; [congruence|]. cbn [strempty].
    change (at_ (c :: p) 0) with c. apply andb_false_iff. right. apply N.eqb_neq. intros ->. apply (Hs p). reflexivity. }
  rewrite Hp. pose proof (p_offset _ P) as Ho. destruct (N.eqb_spec (offset l) UINT64_MAX); [lia|]. destruct (p_size _ P) as [H0 Hs].
  destruct (N.eqb_spec (size l) 0); [congruence|].
  assert (Hv : (designator l =? DES_VOID) && match path l with Some _ => true | None => false end = false).
  { unfold DES_VOID. destruct (N.eqb_spec (designator l) 118) as [E|E]; [|reflexivity]. destruct (p_void _ P E) as [-> _]. reflexivity. }
  rewrite Hv.
  assert (Hov : negb (size l =? UINT64_MAX) && ((offset l + size l) mod two64 <? offset l) = false).
  { destruct Hs as [->|Hs]; [reflexivity|]. apply andb_false_iff. right. apply N.ltb_ge. rewrite N.mod_small; [lia|]. unfold UINT64_MAX, two64 in *. lia. }
  rewrite Hov. cbn [bind designator path offset size].
  assert (Hn : nonempty (path l) = path l).
  { destruct (path l) as [p|] eqn:E; [|reflexivity]. destruct (p_path _ P p E) as [Hn _]. destruct p; [congruence|reflexivity]. }
  assert (Hof : (if designator l =? DES_VOID then 0 else offset l) = offset l).
  { unfold DES_VOID. destruct (N.eqb_spec (designator l) 118) as [E|E]; [|reflexivity]. destruct (p_void _ P E) as [_ ->]. reflexivity. }
  rewrite Hn, Hof. destruct l; reflexivity.
Qed.

(** The object is the caller's alone afterwards, and nobody else notices. *)
Lemma own_ok clear h hs p l : held h (p :: hs) -> sees h p l -> proper l ->
  exists p' h', own clear p h = Some (Ok p', h') /\ held h' (p' :: hs) /\ sees h' p' l /\ cnt hs p' = O /\ keeps hs h h' /\
    (clear = true -> exists o, nth_error h' p' = Some o /\ formatted o = None).
Proof.
  intros H S P. assert (I : In p (p :: hs)) by (left; reflexivity). destruct (rd_ok h _ p l H I S) as (o & R & V & E & C & N).
  unfold own, mbind at 1. rewrite R. rewrite cnt_cons in N. destruct (Nat.eq_dec p p) as [_|]; [|congruence].
  assert (L : (p < length h)%nat) by (apply nth_error_Some; congruence).
  destruct (N.eqb_spec (n_ref o) 1) as [N1|N1].
  - assert (Z : cnt hs p = O) by lia. destruct clear.
    + unfold mbind, wr, mret. eexists p, _. split; [reflexivity|]. split; [|split; [|split; [exact Z|split]]].
      * intros q. destruct (Nat.eq_dec p q) as [<-|D].
        { rewrite set_nth_same by exact L. cbn [n_ref]. split; [rewrite cnt_cons; destruct (Nat.eq_dec p p); [lia|congruence]|exact Logic.I]. }
        { rewrite set_nth_other by exact D. exact (H q). }
      * eexists. rewrite set_nth_same by exact L. split; [reflexivity|exact V].
      * intros q a Hq (x & X & Y). destruct (Nat.eq_dec p q) as [<-|D].
        { apply (count_occ_In Nat.eq_dec) in Hq. unfold cnt in Z. lia. }
        { exists x. rewrite set_nth_other by exact D. auto. }
      * intros _. eexists. rewrite set_nth_same by exact L. split; reflexivity.
    + unfold mret. exists p, h. split; [reflexivity|]. split; [exact H|]. split; [exact S|]. split; [exact Z|]. split; [apply keeps_refl|discriminate].
  - unfold copy, mbind at 2. unfold mbind at 1. rewrite R, V, (copy_proper l P). unfold mbind at 1.
    destruct (alloc_ok h (p :: hs) l H) as (A & H1 & S1 & Z1 & K1). rewrite A. unfold mret at 1.
    assert (H1' : held (h ++ [mkObj 1 l None]) (p :: length h :: hs)) by (eapply held_perm; [|exact H1]; apply perm_swap).
    destruct (unref_ok _ _ p H1') as (h' & U & H2 & S2). unfold mbind. rewrite U. unfold mret.
    exists (length h), h'. split; [reflexivity|]. split; [exact H2|]. split; [apply S2; exact S1|]. split.
    { rewrite cnt_cons in Z1. lia. }
    split; [intros q a Hq Sq; apply S2; apply K1; exact Sq|].
    intros _. assert (X : nth_error (h ++ [mkObj 1 l None]) (length h) = Some (mkObj 1 l None)) by (rewrite nth_error_app2 by lia; rewrite Nat.sub_diag; reflexivity).
    (* unref leaves the new object alone *)
    assert (D : p <> length h) by (intros ->; lia).
    exists (mkObj 1 l None). split; [|reflexivity]. clear - U X D L E.
    unfold unref, mbind, rd, wr in U. rewrite nth_error_app1 in U by exact L. rewrite E in U. destruct (n_ref o =? 0); [discriminate|]. injection U as <-.
    rewrite set_nth_other by exact D. exact X.
Qed.

Lemma update_ok h hs p l f : held h (p :: hs) -> sees h p l -> cnt hs p = O ->
  ((exists o, nth_error h p = Some o /\ formatted o = None) \/ (forall w, location_format (f l) w = location_format l w)) ->
  exists h', update p f h = Some (tt, h') /\ held h' (p :: hs) /\ sees h' p (f l) /\ keeps hs h h'.
Proof.
  intros H S Z F. assert (I : In p (p :: hs)) by (left; reflexivity). destruct (rd_ok h _ p l H I S) as (o & R & V & E & C & N).
  unfold update, mbind. rewrite R. unfold wr. eexists. split; [reflexivity|]. assert (L : (p < length h)%nat) by (apply nth_error_Some; congruence).
  split; [|split].
  - intros q. destruct (Nat.eq_dec p q) as [<-|D].
    + rewrite set_nth_same by exact L. cbn [n_ref]. split; [exact N|]. unfold coherent in *. cbn [formatted val]. destruct F as [(o' & E' & F)|F].
      * rewrite E in E'. injection E' as <-. rewrite F. exact Logic.I.
      * destruct (formatted o) as [[t w]|]; [|exact Logic.I]. rewrite V in *. rewrite F. exact C.
    + rewrite set_nth_other by exact D. exact (H q).
  - eexists. rewrite set_nth_same by exact L. split; [reflexivity|]. cbn [val]. rewrite V. reflexivity.
  - intros q a Hq (x & X & Y). destruct (Nat.eq_dec p q) as [<-|D].
    + apply (count_occ_In Nat.eq_dec) in Hq. unfold cnt in Z. lia.
    + exists x. rewrite set_nth_other by exact D. auto.
Qed.

Lemma owning_ok clear h hs p l code f : held h (p :: hs) -> sees h p l -> proper l ->
  (clear = true \/ forall w, location_format (f l) w = location_format l w) ->
  exists p' h', owning clear p code f h = Some ((Ok code, p'), h') /\ held h' (p' :: hs) /\ sees h' p' (f l) /\ keeps hs h h'.
Proof.
  intros H S P F. destruct (own_ok clear h hs p l H S P) as (p1 & h1 & O & H1 & S1 & Z1 & K1 & C1).
  destruct (update_ok h1 hs p1 l f H1 S1 Z1) as (h2 & U & H2 & S2 & K2).
  { destruct F as [F|F]; [left; auto|right; exact F]. }
  exists p1, h2. split; [|split; [exact H2|split; [exact S2|eapply keeps_trans; eassumption]]].
  unfold owning, mbind at 1. rewrite O. unfold mbind. rewrite U. reflexivity.
Qed.

(** * The operations, seen by the one who calls them and by everybody else *)
Lemma patch_size_ok h hs p l s : held h (p :: hs) -> sees h p l -> proper l ->
  exists c p' h', patch_size p s h = Some ((Ok c, p'), h') /\ c = (if size l =? s then 0 else 1) /\ held h' (p' :: hs) /\ sees h' p' (set_size s l) /\ keeps hs h h'.
Proof.
  intros H S P. assert (I : In p (p :: hs)) by (left; reflexivity). destruct (rd_ok h _ p l H I S) as (o & R & V & _).
  unfold patch_size, mbind at 1. rewrite R, V. destruct (N.eqb_spec (size l) s) as [E|E].
  - exists 0, p, h. split; [reflexivity|]. split; [reflexivity|]. split; [exact H|]. split; [|apply keeps_refl]. rewrite <- E. destruct l; exact S.
  - destruct (owning_ok true h hs p l 1 (set_size s) H S P (or_introl eq_refl)) as (p' & h' & -> & X). exists 1, p', h'. split; [reflexivity|]. split; [reflexivity|exact X].
Qed.

Lemma root_eqb_iff a b : root_eqb a b = true <-> a = b.
Proof. destruct a, b; cbn; try (split; congruence). rewrite N.eqb_eq. split; congruence. Qed.
Lemma streq_ptr_iff a b : streq_ptr a b = true <-> a = b.
Proof. destruct a as [a|], b as [b|]; cbn; try (split; congruence). split; [intros E; apply beq_eq in E; congruence|intros E; injection E as ->; apply beq_refl]. Qed.

Lemma patch_root_ok h hs p l r : held h (p :: hs) -> sees h p l -> proper l ->
  exists p' h', patch_root p r h = Some ((Ok 0, p'), h') /\ held h' (p' :: hs) /\ sees h' p' (set_root r l) /\ keeps hs h h'.
Proof.
  intros H S P. assert (I : In p (p :: hs)) by (left; reflexivity). destruct (rd_ok h _ p l H I S) as (o & R & V & _).
  unfold patch_root, mbind at 1. rewrite R, V. destruct (root_eqb (root l) r) eqn:E.
  - apply root_eqb_iff in E. exists p, h. split; [reflexivity|]. split; [exact H|]. split; [|apply keeps_refl]. rewrite <- E. destruct l; exact S.
  - destruct (owning_ok false h hs p l 0 (set_root r) H S P) as (p' & h' & -> & X); [right; reflexivity|]. exists p', h'. split; [reflexivity|exact X].
Qed.

Lemma advance_ok h hs p l n : held h (p :: hs) -> sees h p l -> proper l ->
  exists c p' h', advance p n h = Some ((c, p'), h') /\ held h' (p' :: hs) /\ keeps hs h h' /\
    (if n =? 0 then c = Ok 0 /\ sees h' p' l
     else if negb (size l =? UINT64_MAX) && (size l <? n) then c = Err ESPIPE /\ sees h' p' l
     else c = Ok 1 /\ sees h' p' (advanced n l)).
Proof.
  intros H S P. assert (I : In p (p :: hs)) by (left; reflexivity). destruct (rd_ok h _ p l H I S) as (o & R & V & _).
  unfold advance. destruct (n =? 0). { exists (Ok 0), p, h. repeat split; auto. apply keeps_refl. }
  unfold mbind at 1. rewrite R, V. destruct (negb (size l =? UINT64_MAX) && (size l <? n)).
  - exists (Err ESPIPE), p, h. repeat split; auto. apply keeps_refl.
  - destruct (owning_ok true h hs p l 1 (advanced n) H S P (or_introl eq_refl)) as (p' & h' & -> & X1 & X2 & X3). exists (Ok 1), p', h'. auto.
Qed.

(** What one location and the next have in common if they are merged. *)
Definition stamp (l : loc) : option (N * N * option Z) :=
  if mtime l =? UINT64_MAX then None else Some (mtime l, inode l, if generation_valid l then Some (generation l) else None).
Lemma mergeable_iff a b : mergeable a b = true <->
  root a = root b /\ path a = path b /\ designator a = designator b /\ (designator a = 118 \/ (offset a + size a) mod two64 = offset b) /\ stamp a = stamp b.
Proof.
  unfold mergeable, stamp. rewrite !andb_true_iff, !orb_true_iff, root_eqb_iff, streq_ptr_iff, !andb_true_iff, !N.eqb_eq, orb_true_iff, negb_true_iff, Z.eqb_eq.
  unfold DES_VOID. split.
  - intros (((((A & B) & C) & D) & E) & F). repeat (split; [assumption|]). rewrite E. rewrite E in F. destruct (N.eqb_spec (mtime b) UINT64_MAX); [reflexivity|].
    destruct F as [F|[[F1 F2] F3]]; [congruence|]. apply Bool.eqb_prop in F2. rewrite F1, F2. rewrite F2 in F3. destruct (generation_valid b); [|reflexivity].
    destruct F3 as [F3|F3]; [discriminate|]. rewrite F3. reflexivity.
  - intros (A & B & C & D & E). repeat (split; [assumption|]). 
    destruct (N.eqb_spec (mtime a) UINT64_MAX) as [X|X], (N.eqb_spec (mtime b) UINT64_MAX) as [Y|Y]; try discriminate.
    + repeat split; auto; congruence.
    + injection E as E1 E2 E3. repeat split; auto. right. rewrite E2. destruct (generation_valid a), (generation_valid b); try discriminate; repeat split; auto.
      right. congruence.
Qed.

Lemma merge_ok h hs p q a b : held h (p :: hs) -> sees h p a -> proper a -> In q hs -> sees h q b -> size a <> UINT64_MAX -> size b <> UINT64_MAX ->
  exists c p' h', merge p q h = Some ((Ok c, p'), h') /\ held h' (p' :: hs) /\ keeps hs h h' /\
    (if mergeable a b then c = 1 /\ sees h' p' (set_size ((size a + size b) mod two64) a) else c = 0 /\ sees h' p' a /\ p' = p).
Proof.
  intros H Sa P Iq Sb Na Nb. assert (I : In p (p :: hs)) by (left; reflexivity). destruct (rd_ok h _ p a H I Sa) as (o & R & V & _).
  destruct (rd_ok h _ q b H (or_intror Iq) Sb) as (o2 & R2 & V2 & _). apply N.eqb_neq in Na. apply N.eqb_neq in Nb.
  unfold merge, mbind at 1. rewrite R. unfold mbind at 1. rewrite R2, V, V2, Na, Nb. destruct (mergeable a b); cbn [negb].
  - destruct (own_ok true h hs p a H Sa P) as (p1 & h1 & O & H1 & S1 & Z1 & K1 & C1). unfold mbind at 1. rewrite O.
    destruct (rd_ok h1 _ q b H1 (or_intror Iq) (K1 q b Iq Sb)) as (o3 & R3 & V3 & _). unfold mbind at 1. rewrite R3, V3.
    destruct (update_ok h1 hs p1 a (fun l => set_size ((size l + size b) mod two64) l) H1 S1 Z1 (or_introl (C1 eq_refl))) as (h2 & U & H2 & S2 & K2).
    unfold mbind at 1. rewrite U. exists 1, p1, h2. split; [reflexivity|]. split; [exact H2|]. split; [eapply keeps_trans; eassumption|]. auto.
  - exists 0, p, h. split; [reflexivity|]. split; [exact H|]. split; [apply keeps_refl|]. auto.
Qed.

Lemma format_ok h hs p l w : held h hs -> In p hs -> sees h p l ->
  exists h', format_full p w h = Some (location_format l w, h') /\ held h' hs /\ (forall q a, sees h' q a <-> sees h q a).
Proof.
  intros H I S. destruct (rd_ok h _ p l H I S) as (o & R & V & E & C & N). unfold format_full, mbind at 1. rewrite R.
  assert (L : (p < length h)%nat) by (apply nth_error_Some; congruence).
  assert (X : exists h', (let t := location_format (val o) w in let* _ := wr p (mkObj (n_ref o) (val o) (Some (t, w))) in mret t) h = Some (location_format l w, h')
              /\ held h' hs /\ (forall q a, sees h' q a <-> sees h q a)).
  { unfold mbind, wr, mret. eexists. rewrite V. split; [reflexivity|]. split.
    - intros q. destruct (Nat.eq_dec p q) as [<-|D]; [|rewrite set_nth_other by exact D; exact (H q)].
      rewrite set_nth_same by exact L. split; [exact N|]. reflexivity.
    - intros q a. unfold sees. destruct (Nat.eq_dec p q) as [<-|D]; [|rewrite set_nth_other by exact D; reflexivity].
      rewrite set_nth_same by exact L. rewrite E. split; intros (x & Y & <-); injection Y as <-; eauto. }
  destruct (formatted o) as [[t w']|] eqn:F; [|exact X]. destruct (N.eqb_spec w' w) as [->|]; [|exact X].
  exists h. split; [|split; [exact H|reflexivity]]. unfold coherent in C. rewrite F, V in C. rewrite C. reflexivity.
Qed.
