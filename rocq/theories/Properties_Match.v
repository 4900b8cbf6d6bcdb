(** C27, C28: .caexclude files. *)
From Coq Require Import Permutation Sorted.
From Verif Require Import Base ArchiveBase FeatureFlags Locator EncoderSpec Match MatchSpec MatchProofs1 MatchProofs2 MatchProofs3 MatchProofs4 MatchProofs5 Properties_Encoder.
Local Open Scope N_scope.

(** ** Proofs for C27 *)
Section Walk.
Variable qsort : forall A : Type, (A -> A -> comparison) -> list A -> list A.
Hypothesis Q : qsort_ok qsort.
Variable fnmatch : list N -> list N -> option bool.
Variable files : list (list N) -> option (list N).

(** What is left of a rule some directories further down *)
Definition residual (r : rule) (above : list (list N)) (r' : rule) : Prop :=
  (r_anchored r = false /\ r' = r) \/
  (r_anchored r = true /\ exists cs1 cs2, r_components r = cs1 ++ cs2 /\ cs2 <> [] /\ Forall2 (fits fnmatch) cs1 above /\
     r' = mkRule (r_negative r) true (r_directory r) cs2).
Definition sane (r : rule) : Prop := r_components r <> [] /\ (r_anchored r = false -> exists c, r_components r = [c]).

Definition stands (here_too : bool) (dir : list (list N)) (m : option cmatch) : Prop :=
  wf_root m /\ forall r', In r' (rules (children m)) <->
    exists dir0 above file r, dir = dir0 ++ above /\ (here_too = false -> above <> []) /\ files dir0 = Some file /\ file_rule file r /\ residual r above r'.

Lemma line_rule_sane l r : line_rule l = Some r -> sane r.
Proof.
  intros H.
  pose proof (parse_line_ok [] l) as K. rewrite H in K. destruct K as (m & E & W & R). pose proof (rules1_components m W) as C. rewrite R in C. inversion C as [|? ? (C1 & C2 & C3) _]; subst. split; assumption.
Qed.
Lemma residual_nil r r' : sane r -> (residual r [] r' <-> r' = r).
Proof.
  intros (Hc & Hs). unfold residual. split.
  - intros [(_ & ->) | (A & cs1 & cs2 & E & N0 & F & ->)]; [reflexivity|]. inversion F; subst. cbn in E. destruct r; cbn in *; subst; reflexivity.
  - intros ->. destruct (r_anchored r) eqn:A; [right|left; auto]. split; [reflexivity|]. exists [], (r_components r). split; [reflexivity|]. split; [exact Hc|]. split; [constructor|]. destruct r; cbn in *; subst; reflexivity.
Qed.
Lemma residual_next r above name r'' : sane r ->
  (residual r (above ++ [name]) r'' <-> exists r', residual r above r' /\ next fnmatch r' name r'').
Proof.
  intros (Hc & Hs). unfold residual, next. split.
  - intros [(A & ->) | (A & cs1 & cs2 & E & N0 & F & ->)]; [exists r; auto|].
    apply Forall2_app_inv_r in F. destruct F as (a1 & a2 & F1 & F2 & ->). inversion F2 as [|c x l l' F3 F4]; subst. inversion F4; subst. clear F2 F4.
    exists (mkRule (r_negative r) true (r_directory r) (c :: cs2)). split.
    + right. split; [exact A|]. exists a1, (c :: cs2). rewrite E, <- app_assoc. split; [reflexivity|]. split; [discriminate|]. auto.
    + right. exists c, cs2. auto.
  - intros (r' & [(A & ->) | (A & cs1 & cs2 & E & N0 & F & ->)] & [(An & ->) | (c & cs & Ec & Nc & Fc & ->)]); cbn in *; try discriminate.
    + left. auto.
    + destruct (Hs A) as (c' & E'). rewrite E' in Ec. injection Ec as -> <-. congruence.
    + subst cs2. right. split; [exact A|]. exists (cs1 ++ [c]), cs. rewrite <- app_assoc. split; [exact E|]. split; [exact Nc|]. split; [|reflexivity]. apply Forall2_app; [exact F|constructor; [exact Fc|constructor]].
Qed.
Lemma applies_here r above name d : sane r ->
  (applies fnmatch r (above ++ [name]) d <-> exists r', residual r above r' /\ here fnmatch r' name d).
Proof.
  intros (Hc & Hs). unfold applies, residual, here. destruct (r_anchored r) eqn:A.
  - split.
    + intros (D & F). apply Forall2_app_inv_r in F. destruct F as (a1 & a2 & F1 & F2 & E). inversion F2 as [|c x l l' F3 F4]; subst. inversion F4; subst. clear F2 F4.
      exists (mkRule (r_negative r) true (r_directory r) [c]). split; [|exists c; auto]. right. split; [reflexivity|]. exists a1, [c]. split; [exact E|]. split; [discriminate|auto].
    + intros (r' & [(K & _) | (_ & cs1 & cs2 & E & N0 & F & ->)] & c & Ec & Fc & D); [discriminate|]. cbn in *. subst cs2. split; [exact D|]. rewrite E. apply Forall2_app; [exact F|constructor; [exact Fc|constructor]].
  - split.
    + intros (D & ab & nm & E & F). apply app_inj_tail in E. destruct E as [<- <-]. exists r. split; [left; auto|]. inversion F as [|c x l l' F3 F4]; subst. inversion F4; subst. exists c. auto.
    + intros (r' & [(_ & ->) | (K & _)] & c & Ec & Fc & D); [|discriminate]. split; [exact D|]. exists above, name. split; [reflexivity|]. rewrite Ec. constructor; [exact Fc|constructor].
Qed.
Lemma residual_negative r above r' : residual r above r' -> r_negative r' = r_negative r.
Proof. intros [(_ & ->) | (_ & cs1 & cs2 & _ & _ & _ & ->)]; reflexivity. Qed.

Lemma hit_iff dir m name d neg : stands true dir m ->
  (hit fnmatch files neg (dir ++ [name]) d <-> in_set (children m) (fun r => r_negative r = neg /\ here fnmatch r name d)).
Proof.
  intros (W & S). unfold hit, in_set. split.
  - intros (dir0 & rest & file & r & E & Nr & Hf & Hr & Ng & Ap). destruct (exists_last Nr) as (above & x & ->). rewrite app_assoc in E. apply app_inj_tail in E. destruct E as [-> <-].
    destruct Hr as (l & Hl1 & Hl2). pose proof (line_rule_sane l r Hl2) as Sr. apply (applies_here r above name d Sr) in Ap. destruct Ap as (r' & Re & He). exists r'. split.
    + apply S. exists dir0, above, file, r. split; [reflexivity|]. split; [discriminate|]. split; [exact Hf|]. split; [exists l; auto|exact Re].
    + split; [|exact He]. rewrite (residual_negative _ _ _ Re). exact Ng.
  - intros (r' & I & Ng & He). apply S in I. destruct I as (dir0 & above & file & r & -> & _ & Hf & (l & Hl1 & Hl2) & Re). pose proof (line_rule_sane l r Hl2) as Sr.
    exists dir0, (above ++ [name]), file, r. rewrite app_assoc. split; [reflexivity|]. split; [intros K; apply app_eq_nil in K; destruct K; discriminate|]. split; [exact Hf|].
    split; [exists l; auto|]. split; [rewrite <- (residual_negative _ _ _ Re); exact Ng|]. apply applies_here; [exact Sr|]. eauto.
Qed.

Lemma merge_root a b : wf_root a -> wf_root b -> exists m, merge a b = Ok m /\ wf_root m /\ rules (children m) = rules (children a) ++ rules (children b).
Proof.
  intros Wa Wb. unfold merge. destruct b as [b|]; [|exists a; rewrite app_nil_r; auto]. destruct a as [a|]; [|exists (Some b); auto].
  destruct Wa as (ca & -> & Wa), Wb as (cb & -> & Wb). cbn [merge_nodes mtype_eqb negb Bool.eqb]. rewrite beq_refl. cbn [negb bind]. eexists. split; [reflexivity|]. split.
  - exists (ca ++ cb). split; [reflexivity|]. apply Forall_app. auto.
  - cbn [children m_children]. apply rules_app.
Qed.

Lemma load_ok ff dir m : has ff EXCLUDE_FILE = true -> stands false dir m ->
  (exists m', load_exclude_file ff m (files dir) = Ok m' /\ stands true dir m') \/
  ((load_exclude_file ff m (files dir) = Err EINVAL \/ load_exclude_file ff m (files dir) = Err ENOBUFS) /\ exists f, files dir = Some f /\ ~ file_valid f).
Proof.
  intros Hff (W & S). unfold load_exclude_file. rewrite Hff. cbn [negb].
  assert (Here : forall r', (exists dir0 above file r, dir = dir0 ++ above /\ (true = false -> above <> []) /\ files dir0 = Some file /\ file_rule file r /\ residual r above r') <->
    In r' (rules (children m)) \/ exists file, files dir = Some file /\ file_rule file r').
  { intros r'. rewrite (S r'). split.
    - intros (dir0 & above & file & r & E & _ & Hf & Hr & Re). destruct above as [|x above].
      + right. rewrite app_nil_r in E. subst dir0. exists file. split; [exact Hf|]. pose proof Hr as (l & _ & Hl). apply (residual_nil r r' (line_rule_sane l r Hl)) in Re. subst. exact Hr.
      + left. exists dir0, (x :: above), file, r. split; [exact E|]. split; [discriminate|auto].
    - intros [(dir0 & above & file & r & E & _ & H) | (file & Hf & Hr)].
      + exists dir0, above, file, r. split; [exact E|]. split; [discriminate|exact H].
      + exists dir, [], file, r'. rewrite app_nil_r. split; [reflexivity|]. split; [discriminate|]. split; [exact Hf|]. split; [exact Hr|]. destruct Hr as (l & _ & Hl). apply (residual_nil r' r' (line_rule_sane l r' Hl)). reflexivity. }
  destruct (files dir) as [f|] eqn:Ef.
  - destruct (new_from_file_ok f) as [(mf & E & Wf & Rf) | (E & V)].
    + left. rewrite E. cbn [bind]. destruct (merge_root m mf W Wf) as (m' & Em & Wm & Rm). exists m'. split; [exact Em|]. split; [exact Wm|]. intros r'. rewrite Here, Rm, in_app_iff, Rf. split.
      * intros [H | H]; [auto|]. right. exists f. auto.
      * intros [H | (f' & E' & H)]; [auto|]. injection E' as <-. auto.
    + right. split; [destruct E as [-> | ->]; cbn [bind]; auto|]. exists f. auto.
  - left. exists m. split; [reflexivity|]. split; [exact W|]. intros r'. rewrite Here. split; [auto|]. intros [H | (f' & E' & _)]; [exact H|discriminate].
Qed.

Lemma child_ok dir m name d : stands true dir m -> name_ok name ->
  (exclude_child qsort fnmatch m name d = Err EINVAL /\ exists p n, fnmatch p n = None) \/
  (exclude_child qsort fnmatch m name d = Ok (false, None) /\ excluded fnmatch files (dir ++ [name]) d) \/
  (exists sub, exclude_child qsort fnmatch m name d = Ok (true, sub) /\ ~ excluded fnmatch files (dir ++ [name]) d /\
    (d = true -> stands false (dir ++ [name]) sub)).
Proof.
  intros S Hn. destruct S as (W & S). unfold exclude_child. destruct (test_ok qsort Q fnmatch m name d W Hn) as [(E & (r & _ & c & cs & _ & F & _)) | (b & sub & E & Wsub & _ & Hb & Hs)]; rewrite E; cbn [bind].
  - left. split; [reflexivity|eauto].
  - right. unfold says in Hb. rewrite <- (hit_iff dir m name d false (conj W S)), <- (hit_iff dir m name d true (conj W S)) in Hb. fold (excluded fnmatch files (dir ++ [name]) d) in Hb.
    destruct b; [left; split; [reflexivity|apply Hb; reflexivity]|]. right.
    destruct (merge_root None sub I Wsub) as (m' & Em & Wm & Rm). rewrite Em. cbn [bind]. exists m'. split; [reflexivity|].
    split; [intros K; apply Hb in K; discriminate|]. intros ->. split; [exact Wm|]. intros r''. rewrite Rm. cbn [children rules flat_map app]. rewrite Hs. unfold in_set. split.
    + intros (_ & r' & I & Nx). apply S in I. destruct I as (dir0 & above & file & r & -> & _ & Hf & Hr & Re). exists dir0, (above ++ [name]), file, r.
      rewrite app_assoc. split; [reflexivity|]. split; [intros _ K; apply app_eq_nil in K; destruct K; discriminate|]. split; [exact Hf|]. split; [exact Hr|].
      pose proof Hr as (l & _ & Hl). apply residual_next; [exact (line_rule_sane l r Hl)|eauto].
    + intros (dir0 & above & file & r & Ed & Na & Hf & Hr & Re). specialize (Na eq_refl). destruct (exists_last Na) as (ab & x & ->). rewrite app_assoc in Ed. apply app_inj_tail in Ed. destruct Ed as [-> <-].
      pose proof Hr as (l & _ & Hl). apply (residual_next r ab name r'' (line_rule_sane l r Hl)) in Re. destruct Re as (r' & Re & Nx). split; [reflexivity|]. exists r'. split; [|exact Nx].
      apply S. exists dir0, ab, file, r. split; [reflexivity|]. split; [discriminate|auto].
Qed.

Lemma walk_ok ff (Hff : has ff EXCLUDE_FILE = true) d : forall path dir m, stands false dir m -> Forall name_ok path ->
  ((walk qsort fnmatch ff files dir m path d = Err EINVAL \/ walk qsort fnmatch ff files dir m path d = Err ENOBUFS) /\
     ((exists p n, fnmatch p n = None) \/ exists a f, files a = Some f /\ ~ file_valid f)) \/
  exists b, walk qsort fnmatch ff files dir m path d = Ok b /\
    (b = true <-> forall p rest, path = p ++ rest -> p <> [] -> ~ excluded fnmatch files (dir ++ p) (match rest with [] => d | _ => true end)).
Proof.
  induction path as [|name path IH]; intros dir m S Hn; cbn [walk].
  - right. exists true. split; [reflexivity|]. split; [|reflexivity]. intros _ p rest E Np. symmetry in E. apply app_eq_nil in E. destruct E. contradiction.
  - inversion Hn as [|? ? Hn1 Hn2]; subst. destruct (load_ok ff dir m Hff S) as [(m1 & E1 & S1) | (E1 & a & f & V)].
    2:{ left. split; [destruct E1 as [-> | ->]; cbn [bind]; auto|]. right. eauto. }
    rewrite E1. cbn [bind]. set (d1 := match path with [] => d | _ => true end).
    destruct (child_ok dir m1 name d1 S1 Hn1) as [(E2 & F) | [(E2 & X) | (sub & E2 & X & Sub)]]; rewrite E2; cbn [bind].
    + left. split; [auto|]. left. exact F.
    + right. exists false. split; [reflexivity|]. split; [discriminate|]. intros H. exfalso. apply (H [name] path eq_refl ltac:(discriminate)). exact X.
    + assert (Gen : forall p rest, name :: path = p ++ rest -> p <> [] -> exists p', p = name :: p' /\ path = p' ++ rest).
      { intros p rest E Np. destruct p as [|x p]; [congruence|]. cbn in E. injection E as <- E. eauto. }
      destruct path as [|name2 path].
      * right. exists true. cbn [walk]. split; [reflexivity|]. split; [|reflexivity]. intros _ p rest E Np. destruct (Gen p rest E Np) as (p' & -> & E'). symmetry in E'. apply app_eq_nil in E'. destruct E' as [-> ->]. exact X.
      * destruct (IH (dir ++ [name]) sub (Sub eq_refl) Hn2) as [L | (b & E & Hb)]; [left; exact L|]. right. exists b. split; [exact E|]. rewrite Hb. split.
        -- intros H p rest E0 Np. destruct (Gen p rest E0 Np) as (p' & -> & E'). destruct p' as [|x p'].
           ++ cbn in E'. subst rest. exact X.
           ++ specialize (H (x :: p') rest E' ltac:(discriminate)). rewrite <- app_assoc in H. exact H.
        -- intros H p rest E0 Np. rewrite <- app_assoc. apply (H (name :: p) rest); [rewrite E0; reflexivity|discriminate].
Qed.
End Walk.

(** ** C27 *)
(** For every tree with .caexclude files anywhere in it, every sorting routine and every fnmatch(): when the encoder gets an
    answer for the entry at [path], it is the documented one. It gets one if all files are valid and fnmatch() has
    no errors; failures are errors, never crashes. *)
Theorem exclude_files_as_documented :
  forall qsort fnmatch ff files path is_directory,
  qsort_ok qsort -> has ff EXCLUDE_FILE = true -> Forall name_ok path ->
  let answer := walk qsort fnmatch ff files [] None path is_directory in
  (forall stored, answer = Ok stored -> (stored = true <-> archived fnmatch files path is_directory)) /\
  ((forall p n, fnmatch p n <> None) -> (forall dir f, files dir = Some f -> file_valid f) -> exists stored, answer = Ok stored) /\
  ((exists stored, answer = Ok stored) \/ answer = Err EINVAL \/ answer = Err ENOBUFS).
Proof.
  intros qsort fnmatch ff files path d Q Hff Hn answer.
  assert (S0 : stands fnmatch files false [] None).
  { split; [exact I|]. intros r'. cbn. split; [intros []|]. intros (dir0 & above & file & r & E & Na & _). symmetry in E. apply app_eq_nil in E. destruct E as [_ ->]. exfalso. apply Na; reflexivity. }
  destruct (walk_ok qsort Q fnmatch files ff Hff d path [] None S0 Hn) as [(E & F) | (b & E & Hb)]; fold answer in E.
  - split; [intros stored K; destruct E; congruence|]. split; [|right; tauto]. intros H1 H2. exfalso. destruct F as [(p & n & F) | (a & f & F & V)]; [exact (H1 p n F)|exact (V (H2 a f F))].
  - split; [|split; [exists b; exact E|left; exists b; exact E]]. intros stored K. rewrite E in K. injection K as <-. rewrite Hb. reflexivity.
Qed.
Print Assumptions exclude_files_as_documented.

(** Without the feature flag the files have no effect. *)
Theorem exclude_files_off :
  forall qsort fnmatch ff files path is_directory, has ff EXCLUDE_FILE = false -> Forall name_ok path ->
  walk qsort fnmatch ff files [] None path is_directory = Ok true.
Proof.
  intros qsort fnmatch ff files path d Hff Hn. generalize (@nil (list N)). induction path as [|n path IH]; intros dir; cbn [walk]; [reflexivity|].
  inversion Hn as [|? ? N1 N2]; subst. unfold load_exclude_file at 1. rewrite Hff. cbn [negb bind]. unfold exclude_child, test. rewrite (name_ok_test n N1). cbn [test_loop bind andb fo_2nd fo_subtree fo_negative fo_positive merge]. apply IH, N2.
Qed.
Print Assumptions exclude_files_off.

(** ** C28 *)
(** The match objects one can make. *)
Inductive made (qsort : forall A : Type, (A -> A -> comparison) -> list A -> list A) (fnmatch : list N -> list N -> option bool) : option cmatch -> Prop :=
| made_null : made qsort fnmatch None
| made_strings l m : new_from_strings None l = Ok m -> made qsort fnmatch m
| made_file f m : new_from_file f = Ok m -> made qsort fnmatch m
| made_merge a b m : made qsort fnmatch a -> made qsort fnmatch b -> merge a b = Ok m -> made qsort fnmatch m
| made_subtree m name d b sub : made qsort fnmatch m -> name_ok name -> test qsort fnmatch m name d true = Ok (b, sub) -> made qsort fnmatch sub
| made_normal m m' : made qsort fnmatch (Some m) -> normalize qsort m = Ok m' -> made qsort fnmatch (Some m').

(** The answer for a path, descending level by level *)
Fixpoint answer_at (qsort : forall A : Type, (A -> A -> comparison) -> list A -> list A) (fnmatch : list N -> list N -> option bool)
    (m : option cmatch) (path : list (list N)) (is_directory : bool) : res bool :=
  match path with
  | [] => Ok false
  | [n] => let! (b, _) := test qsort fnmatch m n is_directory true in Ok b
  | n :: path => let! (_, sub) := test qsort fnmatch m n true true in answer_at qsort fnmatch sub path is_directory
  end.

Lemma made_wf qsort fnmatch m : qsort_ok qsort -> made qsort fnmatch m -> wf_root m.
Proof.
  intros Q. induction 1 as [|l m E|f m E|a b m Ha IHa Hb IHb E|m name d b sub Hm IH Hn E|m m' Hm IH E].
  - exact I.
  - pose proof (new_from_strings_ok l None I) as K. destruct (lines_rules l); [destruct K as (m' & E' & W & _); congruence|congruence].
  - destruct (new_from_file_ok f) as [(m' & E' & W & _) | ([E' | E'] & _)]; congruence.
  - destruct (merge_root a b IHa IHb) as (m' & E' & W & _). congruence.
  - destruct (test_ok qsort Q fnmatch m name d IH Hn) as [(E' & _) | (b' & sub' & E' & W & _)]; congruence.
  - destruct (normalize_root qsort Q m IH) as (m2 & E' & W & _). congruence.
Qed.

Lemma in_set_same a b P : same (rules (children a)) (rules (children b)) -> (in_set (children a) P <-> in_set (children b) P).
Proof. intros S. unfold in_set. split; intros (r & I & H); exists r; (split; [apply S, I|exact H]). Qed.

Lemma answer_same qsort fnmatch (Q : qsort_ok qsort) : forall path a b d, Forall name_ok path -> wf_root a -> wf_root b ->
  same (rules (children a)) (rules (children b)) -> answer_at qsort fnmatch a path d = answer_at qsort fnmatch b path d.
Proof.
  induction path as [|n path IH]; intros a b d Hn Wa Wb S; [reflexivity|]. inversion Hn as [|? ? N1 N2]; subst.
  assert (T : forall d, (test qsort fnmatch a n d true = Err EINVAL /\ test qsort fnmatch b n d true = Err EINVAL) \/
    exists x s1 s2, test qsort fnmatch a n d true = Ok (x, s1) /\ test qsort fnmatch b n d true = Ok (x, s2) /\ wf_root s1 /\ wf_root s2 /\ same (rules (children s1)) (rules (children s2))).
  { intros d0. destruct (test_ok qsort Q fnmatch a n d0 Wa N1) as [(E1 & F1) | (x1 & s1 & E1 & W1 & F1 & H1 & R1)];
    destruct (test_ok qsort Q fnmatch b n d0 Wb N1) as [(E2 & F2) | (x2 & s2 & E2 & W2 & F2 & H2 & R2)].
    - left. auto.
    - exfalso. apply F2. apply (in_set_same a b _ S), F1.
    - exfalso. apply F1. apply (in_set_same a b _ S), F2.
    - right. assert (x1 = x2).
      { unfold says in *. rewrite !(in_set_same a b _ S) in H1. destruct x1, x2; try reflexivity; [symmetry; apply H2, H1; reflexivity|apply H1, H2; reflexivity]. }
      subst x2. exists x1, s1, s2. split; [exact E1|]. split; [exact E2|]. split; [exact W1|]. split; [exact W2|]. intros r. rewrite R1, R2, (in_set_same a b _ S). reflexivity. }
  destruct path as [|n2 path].
  - cbn [answer_at]. destruct (T d) as [(-> & ->) | (x & s1 & s2 & -> & -> & _)]; reflexivity.
  - change (answer_at qsort fnmatch a (n :: n2 :: path) d) with (let! (_, sub) := test qsort fnmatch a n true true in answer_at qsort fnmatch sub (n2 :: path) d).
    change (answer_at qsort fnmatch b (n :: n2 :: path) d) with (let! (_, sub) := test qsort fnmatch b n true true in answer_at qsort fnmatch sub (n2 :: path) d).
    destruct (T true) as [(-> & ->) | (x & s1 & s2 & -> & -> & W1 & W2 & R)]; [reflexivity|]. cbn [bind]. apply IH; assumption.
Qed.

(** Normalising succeeds, keeps the answer for every path - the failures of fnmatch() included -, and doing it again
    changes nothing. *)
Theorem normalize_keeps_meaning :
  forall qsort fnmatch m, qsort_ok qsort -> made qsort fnmatch (Some m) ->
  exists m', normalize qsort m = Ok m' /\
    (forall path is_directory, Forall name_ok path ->
       answer_at qsort fnmatch (Some m') path is_directory = answer_at qsort fnmatch (Some m) path is_directory) /\
    normalize qsort m' = Ok m'.
Proof.
  intros qsort fnmatch m Q M. apply (made_wf _ _ _ Q) in M. destruct (normalize_root qsort Q m M) as (m' & E & W & R & N0). exists m'. split; [exact E|]. split.
  - intros path d Hn. apply answer_same; auto.
  - destruct (normalize_root qsort Q m' W) as (m2 & E2 & W2 & R2 & N2). rewrite E2. f_equal.
    destruct W as (c1 & -> & W1), W2 as (c2 & -> & Wc2). inversion N0; inversion N2; subst. cbn [m_children] in *. f_equal.
    apply (normal_unique (fold_right (fun c n => Nat.max (depth c) n) O c2)); auto. apply fold_depth_le. lia.
Qed.
Print Assumptions normalize_keeps_meaning.

(** The normal form depends only on what the lines say, not on their order or repetition; and it tells different sets of
    rules apart. *)
Theorem normal_form_canonical :
  forall qsort a b ma mb, qsort_ok qsort ->
  new_from_strings None a = Ok (Some ma) -> new_from_strings None b = Ok (Some mb) ->
  exists na nb, normalize qsort ma = Ok na /\ normalize qsort mb = Ok nb /\
    (na = nb <-> forall r, (exists l, In l a /\ line_rule l = Some r) <-> (exists l, In l b /\ line_rule l = Some r)).
Proof.
  intros qsort a b ma mb Q Ea Eb.
  assert (K : forall l m, new_from_strings None l = Ok (Some m) -> wf_root (Some m) /\ forall r, In r (rules (m_children m)) <-> exists x, In x l /\ line_rule x = Some r).
  { intros l m E. pose proof (new_from_strings_ok l None I) as K. destruct (lines_rules l) as [rs|] eqn:L; [|congruence]. destruct K as (m' & E' & W & R). rewrite E in E'. injection E' as <-. split; [exact W|].
    intros r. change (rules (children (Some m)) = rs) in R. cbn [children] in R. rewrite R. apply lines_rules_some, L. }
  destruct (K a ma Ea) as (Wa & Ra), (K b mb Eb) as (Wb & Rb). clear K.
  destruct (normalize_root qsort Q ma Wa) as (na & Na & W1 & R1 & N1), (normalize_root qsort Q mb Wb) as (nb & Nb & W2 & R2 & N2). exists na, nb. split; [exact Na|]. split; [exact Nb|].
  assert (X : same (rules (m_children na)) (rules (m_children nb)) <-> forall r, (exists l, In l a /\ line_rule l = Some r) <-> (exists l, In l b /\ line_rule l = Some r)).
  { unfold same in *. split; intros H r; specialize (H r); rewrite ?R1, ?R2, ?Ra, ?Rb in *; exact H. }
  rewrite <- X. split; [intros ->; apply same_refl|]. intros S.
  destruct W1 as (c1 & -> & Wc1), W2 as (c2 & -> & Wc2). inversion N1; inversion N2; subst. cbn [m_children] in *. f_equal.
  apply (normal_unique (fold_right (fun c n => Nat.max (depth c) n) O c1)); auto. apply fold_depth_le. lia.
Qed.
Print Assumptions normal_form_canonical.

(** Asking without a subtree gives the same answer. *)
Theorem test_without_subtree :
  forall qsort fnmatch m name d b sub, test qsort fnmatch m name d true = Ok (b, sub) -> test qsort fnmatch m name d false = Ok (b, None).
Proof. exact test_quick. Qed.
Print Assumptions test_without_subtree.

(** ** A case. In the root: "*.o" (here as plain names: "x"), "!/keep/x" and "/tmp/"; in /sub: "!x". The oracle compares names. *)
Definition eq_fnmatch (p n : list N) : option bool := Some (beq p n).
Definition f_root : list N := [120; 10] ++ [35; 120; 10] ++ [33; 47; 107; 47; 120; 10] ++ [32; 47; 116; 47; 10].   (* x, #x, !/k/x, " /t/" *)
Definition c27_files (dir : list (list N)) : option (list N) :=
  match dir with [] => Some f_root | [[115]] => Some [33; 120] | _ => None end.                             (* in s: !x *)
Example c27_case :
  let w := walk isort eq_fnmatch EXCLUDE_FILE c27_files [] None in
  w [[120]] false = Ok false /\ w [[97]; [120]] false = Ok false /\ w [[107]; [120]] false = Ok true /\ w [[107]; [107]; [120]] false = Ok false /\
  w [[115]; [120]] false = Ok true /\ w [[116]] false = Ok true /\ w [[116]] true = Ok false /\ w [[97]; [116]] true = Ok true /\ w [[116]; [97]] false = Ok false /\
  (forall dir f, c27_files dir = Some f -> new_from_file f <> Err EINVAL).
Proof. cbv zeta. repeat (split; [vm_compute; reflexivity|]). intros dir f H. unfold c27_files in H. destruct dir as [|[|c [|]] [|]]; try discriminate; try (destruct c as [|p]; try discriminate; repeat (destruct p as [p|p|]; try discriminate)); injection H as <-; vm_compute; discriminate. Qed.
Example c28_case : exists m m', new_from_strings None [[47; 97; 47; 98]; [120]; [47; 97; 47; 99]; [120]] = Ok (Some m) /\ normalize isort m = Ok m' /\ m' <> m /\ len (m_children m') = 2.
Proof. eexists _, _. split; [vm_compute; reflexivity|]. split; [vm_compute; reflexivity|]. split; [discriminate|reflexivity]. Qed.
