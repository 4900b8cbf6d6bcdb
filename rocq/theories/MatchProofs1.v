(** Patterns: what the trees stand for; parsing. *)
From Coq Require Import Permutation Sorted.
From Verif Require Import Base ArchiveBase FeatureFlags Locator DecoderProofs5 EncoderSpec EncoderProofs3 Match MatchSpec Properties_Locator.
Local Open Scope N_scope.

(** ** The rules a tree stands for *)
Definition under (n : list N) (r : rule) : rule := mkRule (r_negative r) true (r_directory r) (n :: r_components r).
Fixpoint rules1 (m : cmatch) : list rule :=
  let '(CM t n a d ch) := m in
  match t with
  | POSITIVE => [mkRule false a d [n]]
  | NEGATIVE => [mkRule true a d [n]]
  | INNER => map (under n) (flat_map rules1 ch)
  end.
Definition rules (l : list cmatch) : list rule := flat_map rules1 l.
Definition children (m : option cmatch) : list cmatch := match m with None => [] | Some m => m_children m end.

Inductive wf : cmatch -> Prop :=
| wf_leaf t n a d : t <> INNER -> wf (CM t n a d [])
| wf_inner n ch : ch <> [] -> Forall wf ch -> Forall (fun c => m_anchored c = true) ch -> wf (CM INNER n true true ch).
Definition wf_root (m : option cmatch) : Prop :=
  match m with None => True | Some m => exists ch, m = CM INNER [] true true ch /\ Forall wf ch end.

Lemma rules_app a b : rules (a ++ b) = rules a ++ rules b.
Proof. apply flat_map_app. Qed.
Lemma rules1_inner n a d ch : rules1 (CM INNER n a d ch) = map (under n) (rules ch).
Proof. reflexivity. Qed.

(** Induction over trees *)
Section Ind.
Variable P : cmatch -> Prop.
Hypothesis H : forall t n a d ch, Forall P ch -> P (CM t n a d ch).
Fixpoint cmatch_ind' (m : cmatch) : P m :=
  match m with
  | CM t n a d ch => H t n a d ch ((fix go (l : list cmatch) : Forall P l :=
      match l with [] => Forall_nil P | c :: l => Forall_cons c (cmatch_ind' c) (go l) end) ch)
  end.
End Ind.

Lemma rules1_nonempty m : wf m -> rules1 m <> [].
Proof.
  induction m as [t n a d ch IH] using cmatch_ind'. intros W. inversion W as [? ? ? ? Ht|? ? Hn Hw Ha]; subst; cbn.
  - destruct t; congruence.
  - destruct ch as [|c ch]; [congruence|]. inversion IH as [|? ? I1 _]; subst. inversion Hw as [|? ? W1 _]; subst. cbn.
    specialize (I1 W1). destruct (rules1 c); [congruence|discriminate].
Qed.
Lemma rules1_components m : wf m -> Forall (fun r => r_components r <> [] /\ (m_anchored m = true -> r_anchored r = true) /\
  (r_anchored r = false -> exists c, r_components r = [c])) (rules1 m).
Proof.
  induction m as [t n a d ch IH] using cmatch_ind'. intros W. inversion W as [? ? ? ? Ht|? ? Hn Hw Ha]; subst; cbn.
  - destruct t; try congruence; (constructor; [|constructor]); cbn; (split; [discriminate|split; [auto|eauto]]).
  - rewrite Forall_map. apply Forall_forall. intros r _. cbn. split; [discriminate|]. split; [auto|discriminate].
Qed.

(** ** Splitting lines *)
Lemma split_nonempty sep s : split sep s <> [].
Proof. destruct s as [|c s]; cbn; [discriminate|]. destruct (c =? sep); [discriminate|]. destruct (split sep s); discriminate. Qed.
Lemma components_slash s : components (47 :: s) = components s.
Proof. reflexivity. Qed.
Lemma components_slashes a s : all slash a -> components (a ++ s) = components s.
Proof. induction a as [|c a IH]; intros A; [reflexivity|]. inversion A as [|? ? C A']; subst. unfold slash in C. apply N.eqb_eq in C. subst c. cbn [app]. rewrite components_slash. apply IH, A'. Qed.
Lemma split_word w s : all no_slash_char w -> split 47 (w ++ s) = match split 47 s with x :: l => (w ++ x) :: l | [] => [w] end.
Proof.
  induction w as [|c w IH]; intros A; cbn [app split].
  - destruct (split 47 s) eqn:E; [apply split_nonempty in E; contradiction|reflexivity].
  - inversion A as [|? ? C A']; subst. unfold no_slash_char in C. apply negb_true_iff in C. rewrite C, (IH A').
    destruct (split 47 s); reflexivity.
Qed.
Lemma components_word w s : all no_slash_char w -> w <> [] -> match s with [] => True | c :: _ => c = 47 end ->
  components (w ++ s) = w :: components s.
Proof.
  intros A Hw Hs. unfold components. rewrite split_word by exact A. destruct s as [|c s].
  - cbn. rewrite app_nil_r. destruct (beq w []) eqn:E; [apply beq_eq in E; contradiction|reflexivity].
  - subst c. cbn [split]. change (47 =? 47) with true. cbv iota. rewrite app_nil_r. cbn [filter]. destruct (beq w []) eqn:E; [apply beq_eq in E; contradiction|]. reflexivity.
Qed.

Lemma last_app_slash (a b : list N) : b <> [] -> last (a ++ b) 0 = last b 0.
Proof.
  intros Hb. induction a as [|x a IH]; [reflexivity|]. cbn [app]. rewrite <- IH. cbn [last]. destruct (a ++ b) eqn:E; [|reflexivity].
  apply app_eq_nil in E. tauto.
Qed.
Lemma last_no_slash w : all no_slash_char w -> (last w 0 =? 47) = false.
Proof.
  induction 1 as [|c w C A IH]; [reflexivity|]. cbn [last]. destruct w; [|exact IH]. unfold no_slash_char in C. apply negb_true_iff in C. exact C.
Qed.
Lemma last_slash (w : list N) : all slash w -> w <> [] -> (last w 0 =? 47) = true.
Proof.
  induction 1 as [|c w C A IH]; [congruence|]. intros _. cbn [last]. destruct w; [exact C|]. apply IH. discriminate.
Qed.

(** A chain of nodes, one per component *)
Fixpoint chain (t : mtype) (a d : bool) (c : list N) (cs : list (list N)) : cmatch :=
  match cs with
  | [] => CM t c a d []
  | c2 :: cs => CM INNER c a true [chain t true d c2 cs]
  end.

Definition bad_component (c : list N) : bool := beq c [46] || beq c [46; 46].

Lemma parse_items_ok t : forall fuel a p, (length p < fuel)%nat -> match p with [] => True | c :: _ => c <> 47 end ->
  parse_items fuel t a p =
    match components p with
    | [] => Err EINVAL
    | c :: cs => if existsb bad_component (c :: cs) then Err EINVAL else Ok (chain t a (last p 0 =? 47) c cs)
    end.
Proof.
  induction fuel as [|fuel IH]; intros a p Hf Hp; [lia|]. cbn [parse_items].
  destruct (strspn_split no_slash_char p) as (w & q & -> & A & E & B). rewrite E.
  destruct (N.eqb_spec (len w) 0) as [Z | Z].
  { apply len_zero_nil in Z. subst w. cbn [app] in *. destruct q as [|c q]; [reflexivity|]. exfalso. unfold no_slash_char in B. apply negb_false_iff, N.eqb_eq in B. contradiction. }
  assert (Hw : w <> []) by (intros ->; apply Z; reflexivity).
  assert (Hq : match q with [] => True | c :: _ => c = 47 end). { destruct q as [|c q]; [exact I|]. unfold no_slash_char in B. apply negb_false_iff, N.eqb_eq in B. exact B. }
  rewrite (components_word w q A Hw Hq). cbn [existsb].
  assert (Bad : bad_component w = ((len w =? 1) && (at_ (w ++ q) 0 =? 46)) || ((len w =? 2) && (at_ (w ++ q) 0 =? 46) && (at_ (w ++ q) 1 =? 46))).
  { clear -Hw. unfold bad_component. destruct w as [|x [|y [|z w]]]; [congruence| | |].
    - change (at_ (([x]) ++ q) 0) with x. change (len [x]) with 1. cbn. destruct (N.eqb_spec x 46); cbn; rewrite ?andb_false_r; reflexivity.
    - change (at_ (([x; y]) ++ q) 0) with x. change (at_ (([x; y]) ++ q) 1) with y. change (len [x; y]) with 2. cbn. destruct (N.eqb_spec x 46), (N.eqb_spec y 46); reflexivity.
    - assert (len (x :: y :: z :: w) =? 1 = false) as -> by (rewrite !len_cons; apply N.eqb_neq; lia).
      assert (len (x :: y :: z :: w) =? 2 = false) as -> by (rewrite !len_cons; apply N.eqb_neq; lia). cbn [andb orb].
      destruct (beq (x :: y :: z :: w) [46]) eqn:E1; [apply beq_eq in E1; discriminate|]. destruct (beq (x :: y :: z :: w) [46; 46]) eqn:E2; [apply beq_eq in E2; discriminate|]. reflexivity. }
  rewrite Bad. destruct ((len w =? 1) && (at_ (w ++ q) 0 =? 46)); [reflexivity|]. cbn [orb].
  destruct ((len w =? 2) && (at_ (w ++ q) 0 =? 46) && (at_ (w ++ q) 1 =? 46)); [reflexivity|]. cbn [orb].
  rewrite takeN_app_exact, dropN_app_exact by reflexivity. clear Bad.
  destruct (strspn_split slash q) as (sl & rest & -> & As & Es & Br). rewrite Es, dropN_app_exact by reflexivity.
  rewrite (components_slashes sl rest As).
  destruct rest as [|x rest].
  - rewrite app_nil_r in *. destruct sl as [|y sl].
    + rewrite app_nil_r. cbn. rewrite (last_no_slash w A). reflexivity.
    + rewrite (last_app_slash w (y :: sl)) by discriminate. rewrite (last_slash (y :: sl) As) by discriminate. change (at_ (y :: sl) 0) with y. inversion As as [|? ? Hy _]; subst. unfold slash in Hy. rewrite Hy. reflexivity.
  - assert (Nsl : sl <> []). { intros ->. cbn [app] in Hq. subst x. unfold slash in Br. cbn in Br. discriminate. }
    rewrite IH.
    2:{ rewrite !app_length in Hf. destruct w; [congruence|]. cbn in Hf |- *. lia. }
    2:{ intros ->. discriminate Br. }
    rewrite (last_app_slash w (sl ++ x :: rest)) by (intros K; apply app_eq_nil in K; destruct K; discriminate).
    rewrite (last_app_slash sl (x :: rest)) by discriminate.
    assert (At : at_ (sl ++ x :: rest) 0 =? 47 = true).
    { destruct sl as [|y sl]; [congruence|]. inversion As as [|? ? Hy _]; subst. exact Hy. }
    rewrite At. assert (Cn : components (x :: rest) <> []).
    { unfold components. cbn [split]. unfold slash in Br. rewrite Br. destruct (split 47 rest) as [|z l]; cbn [filter]; discriminate. }
    destruct (components (x :: rest)) as [|c2 cs]; [congruence|]. destruct (existsb bad_component (c2 :: cs)); reflexivity.
Qed.

Lemma chain_wf t a d : t <> INNER -> forall cs c, (cs = [] \/ a = true) -> wf (chain t a d c cs).
Proof.
  intros Ht. intros cs. revert a. induction cs as [|c2 cs IH]; intros a c Ha; cbn [chain]; [constructor; exact Ht|].
  destruct Ha as [Ha | ->]; [discriminate|]. constructor; [discriminate| |].
  - constructor; [apply IH; auto|constructor].
  - constructor; [|constructor]. destruct cs; reflexivity.
Qed.
Lemma chain_rules t d : t <> INNER -> forall cs a c, (cs = [] \/ a = true) ->
  rules1 (chain t a d c cs) = [mkRule (match t with NEGATIVE => true | _ => false end) a d (c :: cs)].
Proof.
  intros Ht. induction cs as [|c2 cs IH]; intros a c Ha; cbn [chain].
  - destruct t; [reflexivity|reflexivity|congruence].
  - destruct Ha as [Ha | ->]; [discriminate|]. rewrite rules1_inner. unfold rules. cbn [flat_map]. rewrite IH by auto. reflexivity.
Qed.

Definition in_root (ch : list cmatch) : cmatch := CM INNER [] true true ch.

Lemma anchored_components p c c2 cs : components p = c :: c2 :: cs -> existsb slash p = true.
Proof.
  intros H. destruct (existsb slash p) eqn:E; [reflexivity|exfalso].
  assert (A : all no_slash_char p).
  { apply Forall_forall. intros x Hx. unfold no_slash_char. destruct (x =? 47) eqn:Ex; [|reflexivity]. exfalso.
    assert (existsb slash p = true) by (apply existsb_exists; exists x; auto). congruence. }
  destruct p as [|x p]; [discriminate|]. rewrite <- (app_nil_r (x :: p)) in H. rewrite components_word in H by (auto; discriminate). discriminate.
Qed.

Lemma parse_line_ok ch line :
  match line_rule line with
  | None => parse_line (in_root ch) line = Err EINVAL
  | Some r => exists m, parse_line (in_root ch) line = Ok (in_root (ch ++ [m])) /\ wf m /\ rules1 m = [r]
  end.
Proof.
  unfold line_rule, parse_line.
  assert (G : forall (neg : bool) t body, t = (if neg then NEGATIVE else POSITIVE) ->
    match (match components body with
     | [] => None
     | c :: l => if existsb (fun c => beq c [46] || beq c [46; 46]) (c :: l) then None
                 else Some (mkRule neg (existsb (fun c => c =? 47) body) (last body 0 =? 47) (c :: l)) end) with
    | None => (let! first := parse_items (S (length (dropN (strspn slash body) body))) t (existsb slash body) (dropN (strspn slash body) body) in Ok (add_child (in_root ch) first)) = Err EINVAL
    | Some r => exists m, (let! first := parse_items (S (length (dropN (strspn slash body) body))) t (existsb slash body) (dropN (strspn slash body) body) in Ok (add_child (in_root ch) first)) = Ok (in_root (ch ++ [m])) /\ wf m /\ rules1 m = [r]
    end).
  { intros neg t body Ht. destruct (strspn_split slash body) as (sl & q & Eb & As & Es & Br).
    assert (Eq : dropN (strspn slash body) body = q) by (rewrite Es, Eb; apply dropN_app_exact; reflexivity). rewrite Eq. clear Eq.
    rewrite parse_items_ok; [|lia|destruct q as [|x q]; [exact I|intros ->; discriminate Br]].
    assert (Ec : components body = components q) by (rewrite Eb; apply components_slashes, As). 
    assert (An := anchored_components body). rewrite Ec in *. destruct (components q) as [|c cs] eqn:Eq; [reflexivity|].
    change (existsb bad_component (c :: cs)) with (existsb (fun c => beq c [46] || beq c [46; 46]) (c :: cs)).
    destruct (existsb _ (c :: cs)); [reflexivity|]. cbn [bind].
    assert (Ha : cs = [] \/ existsb slash body = true). { destruct cs as [|c2 cs]; [auto|]. right. eapply An. reflexivity. }
    assert (Hl : (last body 0 =? 47) = (last q 0 =? 47)).
    { rewrite Eb. rewrite last_app_slash; [reflexivity|]. intros ->. discriminate Eq. }
    assert (Ti : t <> INNER) by (subst t; destruct neg; discriminate).
    eexists. split; [reflexivity|]. split; [apply chain_wf; auto|]. rewrite chain_rules by auto. rewrite Hl. subst t. destruct neg; reflexivity. }
  destruct line as [|c line]; [apply (G false POSITIVE []); reflexivity|].
  destruct (N.eq_dec c 33) as [-> | Hc].
  - apply (G true NEGATIVE line). reflexivity.
  - assert (E : match c :: line with 33 :: b => (true, b) | _ => (false, c :: line) end = (false, c :: line)).
    { destruct c as [|p]; [reflexivity|]. do 6 (destruct p as [p|p|]; try reflexivity). congruence. }
    assert (E2 : match c :: line with 33 :: p => (NEGATIVE, p) | _ => (POSITIVE, c :: line) end = (POSITIVE, c :: line)).
    { destruct c as [|p]; [reflexivity|]. do 6 (destruct p as [p|p|]; try reflexivity). congruence. }
    rewrite E, E2. apply (G false POSITIVE (c :: line)). reflexivity.
Qed.

(** Patterns from strings *)
Definition root_of (m : option cmatch) : cmatch := match m with None => alloc_subtree | Some m => m end.
Lemma root_of_wf m : wf_root m -> exists ch, root_of m = in_root ch /\ Forall wf ch /\ children m = ch.
Proof. destruct m as [m|]; cbn; [intros (ch & -> & W); exists ch; auto|exists []; auto]. Qed.

Lemma add_line m line : wf_root m ->
  match line_rule line with
  | None => parse_line (root_of m) line = Err EINVAL
  | Some r => exists m', parse_line (root_of m) line = Ok m' /\ wf_root (Some m') /\ rules (m_children m') = rules (children m) ++ [r]
  end.
Proof.
  intros W. destruct (root_of_wf m W) as (ch & -> & Wc & ->). pose proof (parse_line_ok ch line) as H. destruct (line_rule line) as [r|]; [|exact H].
  destruct H as (x & E & Wx & Ex). eexists. split; [exact E|]. split.
  - eexists. split; [reflexivity|]. apply Forall_app. split; [exact Wc|constructor; [exact Wx|constructor]].
  - cbn [m_children in_root]. rewrite rules_app. unfold rules at 2. cbn [flat_map]. rewrite Ex, app_nil_r. reflexivity.
Qed.

Fixpoint lines_rules (ls : list (list N)) : option (list rule) :=
  match ls with
  | [] => Some []
  | l :: ls => match line_rule l, lines_rules ls with Some r, Some rs => Some (r :: rs) | _, _ => None end
  end.
Lemma new_from_strings_ok : forall ls m, wf_root m ->
  match lines_rules ls with
  | None => new_from_strings m ls = Err EINVAL
  | Some rs => exists m', new_from_strings m ls = Ok m' /\ wf_root m' /\ rules (children m') = rules (children m) ++ rs
  end.
Proof.
  induction ls as [|l ls IH]; intros m W; cbn [lines_rules new_from_strings].
  - exists m. rewrite app_nil_r. auto.
  - pose proof (add_line m l W) as H. unfold root_of in H. destruct (line_rule l) as [r|].
    + destruct H as (m1 & E & W1 & R1). rewrite E. cbn [bind]. specialize (IH (Some m1) W1). destruct (lines_rules ls) as [rs|]; [|exact IH].
      destruct IH as (m' & E' & W' & R'). exists m'. split; [exact E'|]. split; [exact W'|]. rewrite R'. cbn [children]. rewrite R1, <- app_assoc. reflexivity.
    + rewrite H. reflexivity.
Qed.
