(** C39: locators. *)
From Verif Require Import Base Locator.
Local Open Scope N_scope.

(** ** Specification, in terms of how a string is composed. *)
Definition all (set : N -> bool) (s : list N) : Prop := Forall (fun c => set c = true) s.
(** The characters of schemes, of host names, and of the authority part of a URL. *)
Definition small_letter (c : N) : Prop := 97 <= c <= 122.
Definition letter_or_digit (c : N) : Prop := small_letter c \/ 65 <= c <= 90 \/ 48 <= c <= 57.
Definition scheme_char (c : N) : Prop := small_letter c \/ 48 <= c <= 57 \/ c = 43 \/ c = 46 \/ c = 45.                 (* + . - *)
Definition host_char (c : N) : Prop := letter_or_digit c \/ c = 45 \/ c = 95 \/ c = 46 \/ c = 37.                       (* - _ . % *)
Definition authority_char (c : N) : Prop := host_char c \/ c = 64 \/ c = 58 \/ c = 91 \/ c = 93.                        (* @ : [ ] *)
(** <protocol>://<host> followed by nothing or by a path, parameters or a query *)
Definition url (s : list N) : Prop := exists c scheme host tail,
  s = c :: scheme ++ [58; 47; 47] ++ host ++ tail /\ small_letter c /\ Forall scheme_char scheme /\ host <> [] /\ Forall authority_char host /\
  (tail = [] \/ exists d t, tail = d :: t /\ (d = 47 \/ d = 59 \/ d = 63)).
(** <host>:<path> or <user>@<host>:<path> *)
Definition ssh (s : list N) : Prop :=
  (exists host path, s = host ++ [58] ++ path /\ host <> [] /\ Forall host_char host /\ path <> []) \/
  (exists user host path, s = user ++ [64] ++ host ++ [58] ++ path /\ user <> [] /\ Forall host_char user /\
     host <> [] /\ Forall host_char host /\ path <> []).

(** ** Proof *)
Definition urlb (s : list N) : Prop := exists c scheme host tail,
  s = c :: scheme ++ [58; 47; 47] ++ host ++ tail /\ lower c = true /\ all url_protocol scheme /\ host <> [] /\ all url_host host /\
  (tail = [] \/ exists d t, tail = d :: t /\ (d = 47 \/ d = 59 \/ d = 63)).
Definition sshb (s : list N) : Prop :=
  (exists host path, s = host ++ [58] ++ path /\ host <> [] /\ all hostname host /\ path <> []) \/
  (exists user host path, s = user ++ [64] ++ host ++ [58] ++ path /\ user <> [] /\ all hostname user /\
     host <> [] /\ all hostname host /\ path <> []).

Lemma strspn_split set s : exists a b, s = a ++ b /\ all set a /\ strspn set s = len a /\
  match b with [] => True | d :: _ => set d = false end.
Proof.
  induction s as [|c s (a & b & -> & A & E & B)]; [exists [], []; repeat split; constructor|]. cbn [strspn]. destruct (set c) eqn:C.
  - exists (c :: a), b. split; [reflexivity|]. split; [constructor; assumption|]. split; [rewrite E, len_cons; reflexivity|exact B].
  - exists [], (c :: a ++ b). split; [reflexivity|]. split; [constructor|]. split; [reflexivity|exact C].
Qed.
Lemma strspn_exact set a b : all set a -> match b with [] => True | d :: _ => set d = false end -> strspn set (a ++ b) = len a.
Proof.
  intros A B. induction A as [|c a C A IH]; cbn [app strspn].
  - destruct b as [|d b]; [reflexivity|]. cbn [strspn]. rewrite B. reflexivity.
  - rewrite C, IH, len_cons. reflexivity.
Qed.
Lemma startswith_iff p : forall s r, startswith s p = Some r <-> s = p ++ r.
Proof.
  induction p as [|c p IH]; intros s r; cbn [startswith app].
  - split; [intros [= <-]; reflexivity|intros <-; reflexivity].
  - destruct s as [|d s]; [split; discriminate|]. destruct (N.eqb_spec c d) as [-> | D].
    + rewrite IH. split; [intros ->; reflexivity|intros [= ->]; reflexivity].
    + split; [discriminate|intros [= E _]; congruence].
Qed.
Lemma at_app a b : at_ (a ++ b) (len a) = at_ b 0.
Proof. unfold at_, len. rewrite Nnat.Nat2N.id, app_nth2, Nat.sub_diag by lia. reflexivity. Qed.
Lemma nonempty_len {A} (l : list A) : l <> [] <-> (len l <=? 0) = false.
Proof. destruct l; [cbn; split; [congruence|discriminate]|]. rewrite len_cons, N.leb_gt. split; [lia|congruence]. Qed.
Lemma nul_free_head b : ~ In 0 b -> at_ b 0 = 0 -> b = [].
Proof. destruct b as [|c b]; [reflexivity|]. change (at_ (c :: b) 0) with c. intros H ->. exfalso. apply H. left. reflexivity. Qed.

Lemma lower_range c : lower c = true <-> 97 <= c <= 122.
Proof. unfold lower. rewrite andb_true_iff, !N.leb_le. lia. Qed.
Lemma eqb4 c a b d e : existsb (N.eqb c) [a; b; d; e] = true <-> c = a \/ c = b \/ c = d \/ c = e.
Proof. cbn [existsb]. rewrite !orb_true_iff, !N.eqb_eq. intuition congruence. Qed.

Lemma is_url_iff s : s <> [] -> ~ In 0 s -> exists b, ca_is_url s = Ok b /\ (b = true <-> urlb s).
Proof.
  intros Hne Hz. unfold ca_is_url. destruct s as [|c s1]; [congruence|]. clear Hne.
  assert (Dp : lower c = true -> ca_is_definitely_path (c :: s1) = false).
  { intros L. apply lower_range in L. unfold ca_is_definitely_path.
    change (at_ (c :: s1) 0) with c. destruct (N.eqb_spec c 47); [lia|]. destruct (N.eqb_spec c 46); [lia|]. reflexivity. }
  destruct (ca_is_definitely_path (c :: s1)) eqn:D.
  { exists false. split; [reflexivity|]. split; [discriminate|]. intros (c' & sc & ho & ta & [= <- _] & L & _). discriminate (Dp L). }
  destruct (lower c) eqn:L; cbn [negb].
  2:{ exists false. split; [reflexivity|]. split; [discriminate|]. intros (c' & sc & ho & ta & [= <- _] & L' & _). congruence. }
  assert (Hz1 : ~ In 0 s1) by (intros H; apply Hz; right; exact H). clear Hz D Dp.
  destruct (strspn_split url_protocol s1) as (a & b & -> & A & E & B). rewrite E, dropN_app_exact by reflexivity.
  destruct (startswith b colon_slash_slash) as [e|] eqn:Se.
  2:{ exists false. split; [reflexivity|]. split; [discriminate|]. intros (c' & sc & ho & ta & [= <- H] & _ & P & _).
      assert (E2 : strspn url_protocol (a ++ b) = len sc) by (rewrite H; apply strspn_exact; [exact P|reflexivity]).
      rewrite E in E2. apply app_inj_len in H; [|unfold len in E2; lia]. destruct H as [-> H].
      apply (proj2 (startswith_iff colon_slash_slash b (ho ++ ta))) in H. clear -H Se. congruence. }
  apply startswith_iff in Se. subst b. unfold colon_slash_slash in *. cbn [app] in *.
  destruct (strspn_split url_host e) as (h & t & -> & Hh & Eh & T). rewrite Eh. cbv zeta. rewrite at_app.
  destruct (len h <=? 0) eqn:Lh.
  { exists false. split; [reflexivity|]. split; [discriminate|]. intros (c' & sc & ho & ta & [= <- H] & _ & P & Q & R & S).
    assert (E2 : strspn url_protocol (a ++ 58 :: 47 :: 47 :: h ++ t) = len sc) by (rewrite H; apply strspn_exact; [exact P|reflexivity]).
    rewrite E in E2. apply app_inj_len in H; [|unfold len in E2; lia]. destruct H as [-> H]. injection H as H.
    apply nonempty_len in Q. assert (E3 : strspn url_host (h ++ t) = len ho).
    { rewrite H. apply strspn_exact; [exact R|]. destruct S as [-> | (d & t' & -> & S)]; [exact I|]. destruct S as [-> | [-> | ->]]; reflexivity. }
    rewrite Eh in E3. rewrite E3 in Lh. congruence. }
  eexists. split; [reflexivity|]. rewrite eqb4.
  assert (Zt : ~ In 0 t) by (intros H; apply Hz1; apply in_or_app; right; do 3 right; apply in_or_app; right; exact H). split.
  - intros K. exists c, a, h, t. split; [reflexivity|]. split; [exact L|]. split; [exact A|]. split; [apply nonempty_len, Lh|]. split; [exact Hh|].
    destruct t as [|d t]; [left; reflexivity|]. right. exists d, t. split; [reflexivity|]. change (at_ (d :: t) 0) with d in K.
    destruct K as [K | [K | [K | K]]]; auto. exfalso. apply Zt. left. exact K.
  - intros (c' & sc & ho & ta & [= <- H] & _ & P & Q & R & S).
    assert (E2 : strspn url_protocol (a ++ 58 :: 47 :: 47 :: h ++ t) = len sc) by (rewrite H; apply strspn_exact; [exact P|reflexivity]).
    rewrite E in E2. apply app_inj_len in H; [|unfold len in E2; lia]. destruct H as [-> H]. injection H as H.
    assert (E3 : strspn url_host (h ++ t) = len ho).
    { rewrite H. apply strspn_exact; [exact R|]. destruct S as [-> | (d & t' & -> & S)]; [exact I|]. destruct S as [-> | [-> | ->]]; reflexivity. }
    rewrite Eh in E3. apply app_inj_len in H; [|unfold len in E3; lia]. destruct H as [-> ->].
    destruct S as [-> | (d & t' & -> & S)]; [change (at_ [] 0) with 0; auto|]. change (at_ (d :: t') 0) with d. tauto.
Qed.

Lemma at_drop (a : list N) d b : dropN (len a + 1) (a ++ d :: b) = b.
Proof. rewrite dropN_app_ge by lia. replace (len a + 1 - len a) with 1 by lia. reflexivity. Qed.
Lemma at_cons (a : list N) d b : at_ (a ++ d :: b) (len a) = d.
Proof. rewrite at_app. reflexivity. Qed.

Lemma is_ssh_iff s : ~ In 0 s -> ca_is_ssh_path s = true <-> sshb s.
Proof.
  intros Hz. unfold ca_is_ssh_path. destruct (ca_is_definitely_path s) eqn:D.
  - split; [discriminate|]. intros H. exfalso.
    assert (K : exists h d r, s = h ++ d :: r /\ h <> [] /\ all hostname h /\ (d = 58 \/ d = 64)).
    { destruct H as [(h & r & -> & A & B & _) | (h & h2 & r & -> & A & B & _)]; eexists h, _, _; (split; [reflexivity|]); auto. }
    destruct K as (h & d & r & -> & Hn & Ha & Hd). clear H. destruct h as [|c1 h]; [congruence|]. inversion Ha as [|? ? C1 Ha']; subst.
    revert D. unfold ca_is_definitely_path. cbn [app]. change (at_ (c1 :: ?x) 0) with c1.
    destruct (N.eqb_spec c1 47) as [-> | _]; [discriminate|]. destruct (N.eqb_spec c1 46) as [-> | _]; [|discriminate].
    destruct h as [|c2 h]; cbn [app].
    + change (at_ (46 :: d :: r) 1) with d. destruct Hd as [-> | ->]; discriminate.
    + change (at_ (46 :: c2 :: h ++ d :: r) 1) with c2. inversion Ha' as [|? ? C2 Ha2]; subst.
      destruct (N.eqb_spec c2 0) as [-> | _]; [discriminate|]. destruct (N.eqb_spec c2 47) as [-> | _]; [discriminate|].
      destruct (N.eqb_spec c2 46) as [-> | _]; [|discriminate]. cbn [andb]. destruct h as [|c3 h]; cbn [app].
      * change (at_ (46 :: 46 :: d :: r) 2) with d. destruct Hd as [-> | ->]; discriminate.
      * change (at_ (46 :: 46 :: c3 :: h ++ d :: r) 2) with c3. inversion Ha2 as [|? ? C3 _]; subst. destruct (N.eqb_spec c3 0) as [-> | _]; discriminate.
  - clear D. destruct (strspn_split hostname s) as (a & b & -> & A & E & B). rewrite E. cbv zeta.
    assert (Uq : forall h d r, a ++ b = h ++ d :: r -> all hostname h -> hostname d = false -> h = a /\ b = d :: r).
    { intros h d r H Hh Hd. assert (E2 : strspn hostname (a ++ b) = len h) by (rewrite H; apply strspn_exact; [exact Hh|exact Hd]).
      rewrite E in E2. apply app_inj_len in H; [|unfold len in E2; lia]. destruct H as [-> ->]. auto. }
    destruct (len a <=? 0) eqn:La.
    + split; [discriminate|]. intros [(h & r & H & Hn & Ha & _) | (h & h2 & r & H & Hn & Ha & _)];
        (apply Uq in H; [|exact Ha|reflexivity]); destruct H as [-> _]; apply nonempty_len in Hn; congruence.
    + apply nonempty_len in La. rewrite at_app. destruct b as [|d b].
      { change (at_ [] 0) with 0. cbn [N.eqb]. split; [discriminate|].
        intros [(h & r & H & Hn & Ha & _) | (h & h2 & r & H & Hn & Ha & _)]; (apply Uq in H; [|exact Ha|reflexivity]); destruct H; discriminate. }
      change (at_ (d :: b) 0) with d. rewrite at_drop. destruct (N.eqb_spec d 64) as [-> | D64].
      * destruct (strspn_split hostname b) as (a2 & b2 & -> & A2 & E2 & B2). rewrite E2. cbv zeta. rewrite at_app.
        assert (Uq2 : forall h d r, a2 ++ b2 = h ++ d :: r -> all hostname h -> hostname d = false -> h = a2 /\ b2 = d :: r).
        { intros h d r H Hh Hd. assert (E3 : strspn hostname (a2 ++ b2) = len h) by (rewrite H; apply strspn_exact; [exact Hh|exact Hd]).
          rewrite E2 in E3. apply app_inj_len in H; [|unfold len in E3; lia]. destruct H as [-> ->]. auto. }
        assert (Inv : sshb (a ++ 64 :: a2 ++ b2) -> a2 <> [] /\ exists r, b2 = 58 :: r /\ r <> []).
        { intros [(h & r & H & Hn & Ha & Hr) | (h & h2 & r & H & Hn & Ha & Hn2 & Ha2 & Hr)]; (apply Uq in H; [|exact Ha|reflexivity]).
          - destruct H. discriminate.
          - destruct H as [-> H]. injection H as H. change (h2 ++ [58] ++ r) with (h2 ++ 58 :: r) in H. apply Uq2 in H; [|exact Ha2|reflexivity]. destruct H as [-> ->]. eauto. }
        destruct (len a2 <=? 0) eqn:La2.
        { split; [discriminate|]. intros H. apply Inv in H. destruct H as [H _]. apply nonempty_len in H. congruence. }
        apply nonempty_len in La2. destruct b2 as [|d2 b2].
        { change (at_ [] 0) with 0. cbn [N.eqb negb]. split; [discriminate|]. intros H. apply Inv in H. destruct H as (_ & r & H & _). discriminate. }
        change (at_ (d2 :: b2) 0) with d2. rewrite at_drop. destruct (N.eqb_spec d2 58) as [-> | D58]; cbn [negb].
        -- destruct b2 as [|x b2]; [change (len (@nil N)) with 0|]; cbn [N.eqb negb].
           ++ split; [discriminate|]. intros H. apply Inv in H. destruct H as (_ & r & [= <-] & H). congruence.
           ++ rewrite len_cons. destruct (N.eqb_spec (1 + len b2) 0); [lia|]. cbn [negb]. split; [|reflexivity]. intros _. right.
              exists a, a2, (x :: b2). repeat split; auto. discriminate.
        -- split; [discriminate|]. intros H. apply Inv in H. destruct H as (_ & r & H & _). congruence.
      * assert (Inv : sshb (a ++ d :: b) -> d = 58 /\ b <> []).
        { intros [(h & r & H & Hn & Ha & Hr) | (h & h2 & r & H & Hn & Ha & _)]; (apply Uq in H; [|exact Ha|reflexivity]); destruct H as [-> [= -> ->]]; [auto|congruence]. }
        destruct (N.eqb_spec d 58) as [-> | D58].
        -- destruct b as [|x b]; [change (len (@nil N)) with 0|]; cbn [N.eqb negb].
           ++ split; [discriminate|]. intros H. apply Inv in H. destruct H. congruence.
           ++ rewrite len_cons. destruct (N.eqb_spec (1 + len b) 0); [lia|]. cbn [negb]. split; [|reflexivity]. intros _. left.
              exists a, (x :: b). repeat split; auto. discriminate.
        -- split; [discriminate|]. intros H. apply Inv in H. destruct H. congruence.
Qed.

Lemma all_iff set (P : N -> Prop) s : (forall c, set c = true <-> P c) -> all set s <-> Forall P s.
Proof. intros H. unfold all. split; intros F; (eapply Forall_impl; [|exact F]); intros c; apply H. Qed.
Lemma small_letter_iff c : lower c = true <-> small_letter c.
Proof. apply lower_range. Qed.
Lemma scheme_char_iff c : url_protocol c = true <-> scheme_char c.
Proof. unfold url_protocol, scheme_char, small_letter, lower, digit. cbn [existsb]. rewrite !orb_true_iff, !andb_true_iff, !N.leb_le, !N.eqb_eq. intuition discriminate. Qed.
Lemma host_char_iff c : hostname c = true <-> host_char c.
Proof. unfold hostname, host_char, letter_or_digit, small_letter, lower, upper, digit. cbn [existsb]. rewrite !orb_true_iff, !andb_true_iff, !N.leb_le, !N.eqb_eq. intuition discriminate. Qed.
Lemma authority_char_iff c : url_host c = true <-> authority_char c.
Proof. unfold url_host, authority_char. rewrite orb_true_iff, host_char_iff. cbn [existsb]. rewrite !orb_true_iff, !N.eqb_eq. intuition discriminate. Qed.
Lemma url_iff s : urlb s <-> url s.
Proof.
  unfold urlb, url. split; intros (c & sc & ho & ta & E & A & B & C & D & F); exists c, sc, ho, ta; (split; [exact E|]);
    (split; [apply small_letter_iff; exact A|]); (split; [eapply all_iff; [apply scheme_char_iff|exact B]|]); (split; [exact C|]);
    (split; [eapply all_iff; [apply authority_char_iff|exact D]|exact F]).
Qed.
Lemma ssh_iff s : sshb s <-> ssh s.
Proof.
  unfold sshb, ssh. split; (intros [(h & q & E & A & B & C) | (u & h & q & E & A & B & C & D & F)]; [left; exists h, q|right; exists u, h, q]);
    repeat (split; [first [assumption | eapply all_iff; [apply host_char_iff|assumption]]|]); try assumption;
    (eapply all_iff; [apply host_char_iff|assumption]).
Qed.

(** C39. Every string (a C string, so free of NUL) is classified, and in exactly one way: the empty one is invalid, URLs are
    those of the form above, SSH paths are those of the other form that aren't URLs, everything else is a path. *)
Theorem locator_classified :
  forall s, ~ In 0 s ->
  exists c, ca_classify_locator s = Ok c /\
    (c = LOCATOR_INVALID <-> s = []) /\
    (c = LOCATOR_URL <-> url s) /\
    (c = LOCATOR_SSH <-> ssh s /\ ~ url s) /\
    (c = LOCATOR_PATH <-> s <> [] /\ ~ url s /\ ~ ssh s).
Proof.
  intros s Hz. destruct s as [|x s].
  - exists LOCATOR_INVALID. split; [reflexivity|].
    assert (U : ~ url []) by (intros (c & sc & ho & ta & H & _); discriminate).
    assert (S : ~ ssh []). { intros [(h & p & H & Hn & _) | (h & h2 & p & H & Hn & _)]; destruct h; try congruence; discriminate. }
    repeat split; try discriminate; try tauto.
  - unfold ca_classify_locator. destruct (is_url_iff (x :: s)) as (b & -> & Hb); [discriminate|exact Hz|]. rewrite url_iff in Hb. cbn [bind].
    pose proof (is_ssh_iff (x :: s) Hz) as Hs. rewrite ssh_iff in Hs. destruct b.
    + exists LOCATOR_URL. split; [reflexivity|]. assert (U : url (x :: s)) by (apply Hb; reflexivity).
      split; [split; discriminate|]. split; [tauto|]. split; [split; [discriminate|tauto]|split; [discriminate|tauto]].
    + assert (U : ~ url (x :: s)) by (intros H; apply Hb in H; discriminate).
      destruct (ca_is_ssh_path (x :: s)) eqn:E; eexists; (split; [reflexivity|]).
      * assert (S : ssh (x :: s)) by (apply Hs; reflexivity). split; [split; discriminate|]. split; [split; [discriminate|tauto]|].
        split; [tauto|]. split; [discriminate|tauto].
      * assert (S : ~ ssh (x :: s)) by (intros H; apply Hs in H; discriminate). split; [split; discriminate|]. split; [split; [discriminate|tauto]|].
        split; [split; [discriminate|tauto]|]. split; [|reflexivity]. intros _. split; [discriminate|tauto].
Qed.
Print Assumptions locator_classified.

(** ** File URLs. [escaped p e]: the text e is the path p, with some or all bytes (a percent sign always) written as two
    hexadecimal digits of either case. *)
Definition hex_value (c v : N) : Prop :=
  (48 <= c <= 57 /\ v = c - 48) \/ (97 <= c <= 102 /\ v = c - 87) \/ (65 <= c <= 70 /\ v = c - 55).
Inductive escaped : list N -> list N -> Prop :=
| escaped_nil : escaped [] []
| escaped_plain c p e : c <> 37 -> escaped p e -> escaped (c :: p) (c :: e)
| escaped_hex h l a b p e : hex_value h a -> hex_value l b -> escaped p e -> escaped (16 * a + b :: p) (37 :: h :: l :: e).

Lemma unhex_iff c v : unhexchar c = Some v <-> hex_value c v.
Proof.
  unfold unhexchar, hex_value, digit.
  destruct (N.leb_spec 48 c), (N.leb_spec c 57), (N.leb_spec 97 c), (N.leb_spec c 102), (N.leb_spec 65 c), (N.leb_spec c 70); cbn [andb];
    (split; [intros [= <-]; lia|intros [[A B] | [[A B] | [A B]]]; try lia; f_equal; lia]) || (split; [discriminate|lia]).
Qed.
Lemma hex_lt c v : hex_value c v -> v < 16.
Proof. unfold hex_value. lia. Qed.
Lemma lor_nibbles a b : a < 16 -> b < 16 -> N.lor (N.shiftl a 4) b = 16 * a + b.
Proof.
  intros A B. rewrite N.shiftl_mul_pow2. change (2 ^ 4) with 16. rewrite (N.mul_comm 16).
  assert (K : forallb (fun x => forallb (fun y => N.lor (x * 16) y =? x * 16 + y) (map N.of_nat (seq 0 16))) (map N.of_nat (seq 0 16)) = true) by reflexivity.
  rewrite forallb_forall in K. specialize (K a). rewrite forallb_forall in K. apply N.eqb_eq. apply K; apply in_map_iff.
  - exists (N.to_nat a). rewrite Nnat.N2Nat.id. split; [reflexivity|]. apply in_seq. lia.
  - exists (N.to_nat b). rewrite Nnat.N2Nat.id. split; [reflexivity|]. apply in_seq. lia.
Qed.
Lemma unescape_ok p e : escaped p e -> unescape 0 e = p.
Proof.
  induction 1 as [|c p e C H IH|h l a b p e A B H IH]; [reflexivity| |].
  - cbn [unescape]. destruct (N.eqb_spec c 37); [contradiction|]. rewrite IH. reflexivity.
  - cbn [unescape]. change (37 =? 37) with true. change (at_ (h :: l :: e) 0) with h. change (at_ (h :: l :: e) 1) with l.
    rewrite (proj2 (unhex_iff _ _) A), (proj2 (unhex_iff _ _) B), IH, lor_nibbles by (eapply hex_lt; eassumption). reflexivity.
Qed.
Lemma cstr_id p : ~ In 0 p -> cstr p = p.
Proof.
  induction p as [|c p IH]; [reflexivity|]. cbn [cstr]. intros H. destruct (N.eqb_spec c 0) as [-> | _]; [exfalso; apply H; left; reflexivity|].
  rewrite IH; [reflexivity|]. intros K. apply H. right. exact K.
Qed.

(** C39. A file URL without host, or with host "localhost", becomes the path it denotes, whichever way it is escaped. *)
Theorem file_url_decoded :
  forall path text, ~ In 0 path -> escaped (47 :: path) (47 :: text) ->
  ca_strip_file_url ([102; 105; 108; 101; 58; 47; 47] ++ 47 :: text) = 47 :: path /\
  ca_strip_file_url ([102; 105; 108; 101; 58; 47; 47] ++ [108; 111; 99; 97; 108; 104; 111; 115; 116] ++ 47 :: text) = 47 :: path.
Proof.
  intros path text Hz He. apply unescape_ok in He. unfold ca_strip_file_url.
  assert (Z : ~ In 0 (47 :: path)) by (intros [H | H]; [discriminate|contradiction]). split.
  - rewrite (proj2 (startswith_iff file_url _ (47 :: text))) by reflexivity. change (at_ (47 :: text) 0 =? 47) with true. rewrite He. apply cstr_id, Z.
  - rewrite (proj2 (startswith_iff file_url _ (localhost_slash ++ text))) by reflexivity. change (at_ (localhost_slash ++ text) 0 =? 47) with false.
    rewrite (proj2 (startswith_iff localhost_slash _ text)) by reflexivity. rewrite He. apply cstr_id, Z.
Qed.
Print Assumptions file_url_decoded.

(** C39. Every path can be written as such an URL; and what isn't such an URL is left alone. *)
Definition hex_digit (v : N) : N := if v <? 10 then 48 + v else 87 + v.
Theorem file_url_complete :
  (forall path, Forall (fun c => c < 256) path -> exists text, escaped (47 :: path) (47 :: text)) /\
  (forall s, ca_strip_file_url s <> s -> exists rest, s = [102; 105; 108; 101; 58; 47; 47] ++ 47 :: rest \/
     s = [102; 105; 108; 101; 58; 47; 47] ++ [108; 111; 99; 97; 108; 104; 111; 115; 116] ++ 47 :: rest).
Proof.
  split.
  - intros path Hb. assert (E : exists text, escaped path text).
    { induction Hb as [|c p C H [t IH]]; [exists []; constructor|]. exists (37 :: hex_digit (c / 16) :: hex_digit (c mod 16) :: t).
      replace c with (16 * (c / 16) + c mod 16) at 1 by (symmetry; apply N.div_mod; lia). 
      assert (c / 16 < 16) by (apply N.div_lt_upper_bound; lia). assert (c mod 16 < 16) by (apply N.mod_lt; lia).
      assert (Hx : forall v, v < 16 -> hex_value (hex_digit v) v). { clear. intros v V. unfold hex_digit, hex_value. destruct (N.ltb_spec v 10); lia. }
      constructor; auto. }
    destruct E as [t E]. exists t. constructor; [lia|exact E].
  - intros s H. unfold ca_strip_file_url in H. destruct (startswith s file_url) as [e|] eqn:S; [|congruence]. apply startswith_iff in S. subst s.
    destruct (N.eqb_spec (at_ e 0) 47) as [E | E].
    + destruct e as [|c e]; [discriminate|]. change (at_ (c :: e) 0) with c in E. subst c. exists e. left. reflexivity.
    + destruct (startswith e localhost_slash) as [r|] eqn:S; [|congruence]. apply startswith_iff in S. subst e. exists r. right. reflexivity.
Qed.
Print Assumptions file_url_complete.

(** A NUL can't be in a path, but it can be escaped in an URL: the rest is lost then. *)
Theorem file_url_nul_refuted :
  exists path text, escaped (47 :: path) (47 :: text) /\ ca_strip_file_url ([102; 105; 108; 101; 58; 47; 47] ++ 47 :: text) <> 47 :: path.
Proof.
  exists [97; 0; 98], [97; 37; 48; 48; 98]. split; [|vm_compute; discriminate].
  do 2 (constructor; [lia|]). change 0 with (16 * 0 + 0) at 1. constructor; [left; lia|left; lia|]. constructor; [lia|]. constructor.
Qed.
Print Assumptions file_url_nul_refuted.

(** Cases: http://h/x, u@h:x, h:x, ./h:x, and a file URL "file://localhost/a%20b". *)
Example c39_case :
  map ca_classify_locator [[104; 116; 116; 112; 58; 47; 47; 104; 47; 120]; [117; 64; 104; 58; 120]; [104; 58; 120]; [46; 47; 104; 58; 120]; []]
  = map (@Ok locator_class) [LOCATOR_URL; LOCATOR_SSH; LOCATOR_SSH; LOCATOR_PATH; LOCATOR_INVALID] /\
  ca_strip_file_url (file_url ++ localhost_slash ++ [97; 37; 50; 48; 98]) = [47; 97; 32; 98].
Proof. vm_compute. repeat split. Qed.
