(** Reading .caexclude files *)
From Verif Require Import Base ArchiveBase FeatureFlags Locator Match MatchSpec MatchProofs1 Properties_Locator.
Local Open Scope N_scope.

Definition delim (c : N) : bool := (c =? 10) || (c =? 0).
Definition no_delim (l : list N) : Prop := ~ In 10 l /\ ~ In 0 l.
Lemma delim_iff c : delim c = true <-> c = 10 \/ c = 0.
Proof. unfold delim. rewrite orb_true_iff, !N.eqb_eq. reflexivity. Qed.
Lemma no_delim_cons c l : no_delim (c :: l) <-> delim c = false /\ no_delim l.
Proof.
  unfold no_delim. cbn. split.
  - intros (A & B). split; [|tauto]. destruct (delim c) eqn:E; [|reflexivity]. apply delim_iff in E. exfalso. destruct E; subst; tauto.
  - intros (E & A & B). split; intros [-> | H]; try contradiction; discriminate.
Qed.

Fixpoint lines (f : list N) : list (list N) :=
  match f with
  | [] => []
  | c :: f => if delim c then [] :: lines f else match lines f with [] => [[c]] | l :: ls => (c :: l) :: ls end
  end.
Lemma lines_cut l c rest : no_delim l -> delim c = true -> lines (l ++ c :: rest) = l :: lines rest.
Proof.
  intros Hl Hc. induction l as [|x l IH]; cbn [app lines]; [rewrite Hc; reflexivity|]. apply no_delim_cons in Hl. destruct Hl as [E Hl]. rewrite E, (IH Hl). reflexivity.
Qed.
Lemma lines_last l : no_delim l -> l <> [] -> lines l = [l].
Proof.
  induction l as [|x l IH]; [congruence|]. intros Hl _. apply no_delim_cons in Hl. destruct Hl as [E Hl]. cbn [lines]. rewrite E. destruct l as [|y l]; [reflexivity|]. rewrite IH by (auto; discriminate). reflexivity.
Qed.
Lemma text_lines f ls : text f ls -> ls = lines f.
Proof.
  induction 1 as [|l Hn H1 H2|l c rest ls H1 H2 Hc H IH]; [reflexivity|symmetry; apply lines_last; [split; assumption|assumption]|].
  rewrite lines_cut; [congruence|split; assumption|apply delim_iff, Hc].
Qed.
Lemma lines_text f : text f (lines f).
Proof.
  induction f as [|c f IH]; cbn [lines]; [constructor|]. destruct (delim c) eqn:E.
  - apply (text_line [] c f (lines f)); [intros []|intros []|apply delim_iff, E|exact IH].
  - inversion IH as [E1 E2|l Hn H1 H2 E1 E2|l x rest ls H1 H2 Hx H E1 E2]; subst.
    + assert (K : no_delim [c]) by (apply no_delim_cons; split; [exact E|split; intros []]). apply text_last; [discriminate|apply K|apply K].
    + assert (K : no_delim (c :: f)) by (apply no_delim_cons; split; [exact E|split; assumption]). apply text_last; [discriminate|apply K|apply K].
    + assert (K : no_delim (c :: l)) by (apply no_delim_cons; split; [exact E|split; assumption]). apply (text_line (c :: l) x rest ls); try assumption; apply K.
Qed.
Lemma text_iff f ls : text f ls <-> ls = lines f.
Proof. split; [apply text_lines|intros ->; apply lines_text]. Qed.

(** read_line *)
Lemma read_line_cut limit c rest : delim c = true -> forall l n, no_delim l ->
  read_line limit n (l ++ c :: rest) = if n + len l <? limit then Ok (l, len l + 1, rest) else Err ENOBUFS.
Proof.
  intros Hc. induction l as [|x l IH]; intros n Hl; cbn [app read_line].
  - change (len []) with 0. rewrite N.add_0_r. fold (delim c). rewrite Hc. destruct (N.leb_spec limit n), (N.ltb_spec n limit); try reflexivity; lia.
  - apply no_delim_cons in Hl. destruct Hl as [E Hl]. fold (delim x). rewrite E, (IH (n + 1) Hl), len_cons.
    destruct (N.leb_spec limit n), (N.ltb_spec (n + 1 + len l) limit), (N.ltb_spec (n + (1 + len l)) limit); try reflexivity; try lia.
    cbn [bind]. f_equal. f_equal. f_equal. lia.
Qed.
Lemma read_line_last limit : forall l n, no_delim l ->
  read_line limit n l = if n + len l <? limit then Ok (l, len l, []) else Err ENOBUFS.
Proof.
  induction l as [|x l IH]; intros n Hl; cbn [read_line].
  - change (len []) with 0. rewrite N.add_0_r. destruct (N.leb_spec limit n), (N.ltb_spec n limit); try reflexivity; lia.
  - apply no_delim_cons in Hl. destruct Hl as [E Hl]. fold (delim x). rewrite E, (IH (n + 1) Hl), len_cons.
    destruct (N.leb_spec limit n), (N.ltb_spec (n + 1 + len l) limit), (N.ltb_spec (n + (1 + len l)) limit); try reflexivity; try lia.
    cbn [bind]. f_equal. f_equal. f_equal. lia.
Qed.

(** strstrip *)
Lemma white_iff c : white c = true <-> blank_char c.
Proof. unfold white, blank_char. rewrite orb_true_iff, !N.eqb_eq. reflexivity. Qed.
Lemma delete_trailing_app s b : all white b -> delete_trailing (s ++ b) = delete_trailing s.
Proof.
  intros B. induction s as [|c s IH]; cbn [app delete_trailing].
  - induction B as [|c b C B IH]; [reflexivity|]. cbn [delete_trailing]. rewrite IH, C. reflexivity.
  - rewrite IH. reflexivity.
Qed.
Lemma delete_trailing_id s : s <> [] -> white (last s 0) = false -> delete_trailing s = s.
Proof.
  induction s as [|c s IH]; [congruence|]. intros _ H. cbn [delete_trailing last] in *. destruct s as [|d s].
  - cbn. rewrite H. reflexivity.
  - rewrite IH by (auto; discriminate). reflexivity.
Qed.
Lemma delete_trailing_split s : exists b, s = delete_trailing s ++ b /\ all white b /\ (delete_trailing s = [] \/ white (last (delete_trailing s) 0) = false).
Proof.
  induction s as [|c s (b & E & B & L)]; [exists []; cbn; split; [reflexivity|]; split; [constructor|auto]|]. cbn [delete_trailing].
  destruct (delete_trailing s) as [|d t] eqn:Ed.
  - destruct (white c) eqn:W.
    + exists (c :: b). cbn [app] in *. rewrite E at 1. split; [reflexivity|]. split; [constructor; assumption|auto].
    + exists b. rewrite E at 1. split; [reflexivity|]. split; [assumption|]. right. exact W.
  - exists b. rewrite E at 1. split; [reflexivity|]. split; [assumption|]. right. destruct L as [L | L]; [discriminate|]. exact L.
Qed.
Lemma trimmed_iff line l : trimmed line l <-> l = strstrip line.
Proof.
  split.
  - intros (a & b & -> & A & B & H). unfold strstrip.
    assert (A' : all white a) by (eapply Forall_impl; [|exact A]; intros c; apply white_iff).
    assert (B' : all white b) by (eapply Forall_impl; [|exact B]; intros c; apply white_iff).
    rewrite app_assoc, (delete_trailing_app _ _ B'). destruct l as [|c l].
    + rewrite app_nil_r. pose proof (delete_trailing_app [] a A') as K. cbn [app] in K. rewrite K. reflexivity.
    + destruct H as [H | (H1 & H2)]; [discriminate|]. rewrite delete_trailing_id.
      * rewrite strspn_exact; [rewrite dropN_app_exact by reflexivity; reflexivity|exact A'|]. cbn in H1. rewrite <- white_iff in H1. destruct (white c); [congruence|reflexivity].
      * intros K. apply app_eq_nil in K. destruct K. discriminate.
      * rewrite last_app_slash by discriminate. rewrite <- white_iff in H2. destruct (white (last (c :: l) 0)); [congruence|reflexivity].
  - intros ->. unfold strstrip. destruct (delete_trailing_split line) as (b & E & B & L). set (d := delete_trailing line) in *. clearbody d. subst line.
    destruct (strspn_split white d) as (a & l & -> & A & Es & Hl). rewrite Es, dropN_app_exact by reflexivity.
    exists a, b. rewrite <- app_assoc. split; [reflexivity|]. split; [eapply Forall_impl; [|exact A]; intros c; apply white_iff|].
    split; [eapply Forall_impl; [|exact B]; intros c; apply white_iff|]. destruct l as [|c l]; [left; reflexivity|]. right. split.
    + cbn. rewrite <- white_iff. congruence.
    + destruct L as [L | L]; [destruct a; discriminate|]. rewrite last_app_slash in L by discriminate. rewrite <- white_iff. congruence.
Qed.

(** The lines that count *)
Definition counts (l : list N) : bool := match l with [] => false | c :: _ => negb (c =? 35) end.
Definition effective (ls : list (list N)) : list (list N) := filter counts (map strstrip ls).

Lemma rule_line_iff f l : rule_line f l <-> In l (effective (lines f)).
Proof.
  unfold rule_line, effective. rewrite filter_In, in_map_iff. split.
  - intros (ls & line & T & I & Tr & N0 & N1). apply text_lines in T. subst ls. apply trimmed_iff in Tr. split; [exists line; auto|].
    destruct l as [|c l]; [congruence|]. cbn in *. apply negb_true_iff, N.eqb_neq. exact N1.
  - intros ((line & E & I) & C). exists (lines f), line. split; [apply lines_text|]. split; [exact I|]. split; [apply trimmed_iff; auto|].
    destruct l as [|c l]; [discriminate|]. cbn in *. split; [discriminate|]. apply negb_true_iff, N.eqb_neq in C. exact C.
Qed.

Lemma new_from_strings_app a b m : new_from_strings m (a ++ b) = let! m := new_from_strings m a in new_from_strings m b.
Proof. revert m. induction a as [|x a IH]; intros m; cbn [app new_from_strings bind]; [reflexivity|]. destruct (parse_line _ x); cbn [bind]; auto. Qed.

Lemma file_step fuel m line count f rest : read_line LARGE_LINE_MAX 0 f = Ok (line, count, rest) -> count <> 0 ->
  new_from_file_loop (S fuel) m f =
    if counts (strstrip line) then let! m := parse_line (root_of m) (strstrip line) in new_from_file_loop fuel (Some m) rest
    else new_from_file_loop fuel m rest.
Proof.
  intros H Hc. cbn [new_from_file_loop]. rewrite H. cbn [bind]. destruct (N.eqb_spec count 0); [contradiction|].
  set (l := strstrip line). clearbody l. destruct l as [|c l]; [reflexivity|]. cbn [counts].
  destruct (N.eqb_spec c 35) as [-> | Hc35]; [reflexivity|]. cbn [negb].
  destruct c as [|p]; [reflexivity|]. do 6 (destruct p as [p|p|]; try reflexivity). congruence.
Qed.

Definition short (l : list N) : bool := len l <? 65536.

Lemma file_loop_ok f ls : text f ls -> forall fuel m, (length f < fuel)%nat ->
  (forallb short ls = true -> new_from_file_loop fuel m f = new_from_strings m (effective ls)) /\
  (forallb short ls = false -> wf_root m -> new_from_file_loop fuel m f = Err ENOBUFS \/ new_from_file_loop fuel m f = Err EINVAL).
Proof.
  induction 1 as [|l Hn H1 H2|l c rest ls H1 H2 Hc H IH]; intros fuel m Hf; (destruct fuel as [|fuel]; [lia|]).
  - split; [reflexivity|discriminate].
  - assert (R := read_line_last LARGE_LINE_MAX l 0 (conj H1 H2)). cbn [forallb]. rewrite andb_true_r. unfold short. rewrite N.add_0_l in R. change LARGE_LINE_MAX with 65536 in *.
    destruct (len l <? 65536); (split; [|]); try discriminate; intros _.
    + rewrite (file_step fuel m l (len l) l [] R) by (destruct l; [congruence|rewrite len_cons; lia]).
      unfold effective. cbn [map filter]. destruct fuel as [|fuel]; [destruct l; [congruence|cbn in Hf; lia]|].
      destruct (counts (strstrip l)); cbn [new_from_strings]; [|reflexivity]. unfold root_of. destruct (parse_line _ _); reflexivity.
    + left. cbn [new_from_file_loop]. change LARGE_LINE_MAX with 65536. rewrite R. reflexivity.
  - assert (R := read_line_cut LARGE_LINE_MAX c rest (proj2 (delim_iff c) Hc) l 0 (conj H1 H2)). rewrite N.add_0_l in R. change LARGE_LINE_MAX with 65536 in R.
    rewrite app_length in Hf. cbn in Hf. cbn [forallb]. unfold short at 1 3. destruct (len l <? 65536).
    + cbn [andb]. rewrite (file_step fuel m l (len l + 1) _ rest R) by lia. unfold effective. cbn [map filter]. destruct (counts (strstrip l)).
      * cbn [new_from_strings]. split.
        -- intros F. unfold root_of. destruct (parse_line _ _) as [m1|e| |]; cbn [bind]; try reflexivity. apply (IH fuel (Some m1)); [lia|exact F].
        -- intros F W. assert (A := add_line m (strstrip l) W). destruct (line_rule (strstrip l)) as [r|]; [|rewrite A; auto].
           destruct A as (m1 & E & W1 & _). rewrite E. cbn [bind]. apply (IH fuel (Some m1)); [lia|exact F|exact W1].
      * split; [intros F; apply (IH fuel m); [lia|exact F]|intros F W; apply (IH fuel m); [lia|exact F|exact W]].
    + cbn [andb]. split; [discriminate|]. intros _ _. left. cbn [new_from_file_loop]. change LARGE_LINE_MAX with 65536. rewrite R. reflexivity.
Qed.

Lemma lines_rules_some ls rs : lines_rules ls = Some rs -> forall r, In r rs <-> exists l, In l ls /\ line_rule l = Some r.
Proof.
  revert rs. induction ls as [|l ls IH]; intros rs H r; cbn [lines_rules] in H.
  - injection H as <-. split; [intros []|intros (l & [] & _)].
  - destruct (line_rule l) as [r0|] eqn:E; [|discriminate]. destruct (lines_rules ls) as [rs0|]; [|discriminate]. injection H as <-. split.
    + intros [-> | I]; [exists l; split; [left; reflexivity|exact E]|]. apply (IH rs0 eq_refl) in I. destruct I as (l1 & I & E1). exists l1. split; [right; exact I|exact E1].
    + intros (l1 & [-> | I] & E1); [left; congruence|right]. apply (IH rs0 eq_refl). eauto.
Qed.
Lemma lines_rules_none ls : lines_rules ls = None -> exists l, In l ls /\ line_rule l = None.
Proof.
  induction ls as [|l ls IH]; cbn [lines_rules]; [discriminate|]. intros H. destruct (line_rule l) as [r0|] eqn:E; [|exists l; split; [left; reflexivity|exact E]].
  destruct (lines_rules ls); [discriminate|]. destruct (IH eq_refl) as (l1 & I & E1). exists l1. split; [right; exact I|exact E1].
Qed.

Lemma new_from_file_ok f :
  (exists m, new_from_file f = Ok m /\ wf_root m /\ (forall r, In r (rules (children m)) <-> file_rule f r)) \/
  ((new_from_file f = Err EINVAL \/ new_from_file f = Err ENOBUFS) /\ ~ file_valid f).
Proof.
  unfold new_from_file. destruct (file_loop_ok f (lines f) (lines_text f) (S (length f)) None ltac:(lia)) as [A B].
  destruct (forallb short (lines f)) eqn:E.
  - rewrite (A eq_refl). pose proof (new_from_strings_ok (effective (lines f)) None I) as K. destruct (lines_rules (effective (lines f))) as [rs|] eqn:L.
    + left. destruct K as (m & Em & Wm & Rm). exists m. split; [exact Em|]. split; [exact Wm|]. intros r. rewrite Rm. cbn [children rules flat_map app].
      rewrite (lines_rules_some _ _ L r). unfold file_rule. split; intros (l & H1 & H2); exists l; (split; [apply rule_line_iff; exact H1|exact H2]).
    + right. split; [left; exact K|]. intros [V _]. destruct (lines_rules_none _ L) as (l & I & N0). apply (V l); [apply rule_line_iff, I|exact N0].
  - right. split; [destruct (B eq_refl I) as [-> | ->]; auto|]. intros [_ V].
    assert (K : forallb short (lines f) = true); [|congruence]. apply forallb_forall. intros l I. unfold short. apply N.ltb_lt. apply (V (lines f) l); [apply lines_text|exact I].
Qed.
