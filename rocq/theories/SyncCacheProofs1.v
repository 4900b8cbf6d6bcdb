(** Proofs about SyncCache.v, 1: origins and positions. *)
From Verif Require Import Base SyncCache SyncCacheSpec.
Local Open Scope N_scope.

Lemma covers_bytes o : covers o = origin_bytes o.
Proof. unfold covers, origin_bytes. induction o as [|l o IH]; [reflexivity|]. cbn [map fold_right]. rewrite IH. reflexivity. Qed.

Lemma origin_bytes_cons l o : origin_bytes (l :: o) = l_size l + origin_bytes o.
Proof. reflexivity. Qed.

Section Tree.
Context (tree : list region) (Htree : tree_ok tree).

Lemma base_S i r : nth_error tree i = Some r -> base tree (S i) = base tree i + len (r_data r).
Proof using.
  clear Htree. unfold base. revert i. induction tree as [|x t IH]; intros [|i] H; cbn [nth_error] in H; try discriminate.
  - injection H as ->. cbn [firstn map concat]. rewrite app_nil_r. change (@len N []) with 0. lia.
  - specialize (IH i H). cbn [firstn map concat] in *. rewrite !len_app. lia.
Qed.

Lemma stream_at i r : nth_error tree i = Some r -> exists rest, stream tree = takeN (base tree i) (stream tree) ++ r_data r ++ rest.
Proof using.
  intros H. unfold stream, base. pose proof (nth_error_split tree i H) as (a & b & Et & Ei). rewrite Et. rewrite <- Ei.
  rewrite firstn_app, Nat.sub_diag, firstn_all, firstn_O, app_nil_r. rewrite map_app, concat_app. cbn [map concat].
  exists (concat (map r_data b)). rewrite takeN_app_exact; [reflexivity|reflexivity].
Qed.

Lemma base_le i r : nth_error tree i = Some r -> base tree i + len (r_data r) <= len (stream tree).
Proof using.
  intros H. destruct (stream_at i r H) as (rest & E). rewrite E at 1. rewrite !len_app.
  enough (len (takeN (base tree i) (stream tree)) = base tree i) by lia.
  unfold stream, base. rewrite len_takeN. apply N.min_l.
  pose proof (nth_error_split tree i H) as (a & b & Et & Ei). rewrite Et at 2. rewrite Et at 1. rewrite <- Ei at 1.
  rewrite firstn_app, Nat.sub_diag, firstn_all, firstn_O, app_nil_r. rewrite map_app, concat_app, len_app. lia.
Qed.

Lemma base_last i : nth_error tree i = None -> base tree i = len (stream tree).
Proof using. intros H. apply nth_error_None in H. unfold base, stream. rewrite firstn_all2 by lia. reflexivity. Qed.

Lemma sub_region i r off n : nth_error tree i = Some r -> off + n <= len (r_data r) -> sub tree (base tree i + off) n = takeN n (dropN off (r_data r)).
Proof using.
  intros H Hn. destruct (stream_at i r H) as (rest & E). unfold sub. pose proof (base_le i r H) as Hb.
  assert (Hl : len (takeN (base tree i) (stream tree)) = base tree i) by (rewrite len_takeN; lia).
  rewrite (N.add_comm _ off), <- dropN_dropN. rewrite E at 1. rewrite dropN_app_exact by exact Hl.
  rewrite dropN_app_le by lia. rewrite takeN_app_le; [reflexivity|]. rewrite len_dropN. lia.
Qed.

Lemma len_sub p n : p + n <= len (stream tree) -> len (sub tree p n) = n.
Proof using. intros H. unfold sub. rewrite len_takeN, len_dropN. lia. Qed.

Lemma sub_app p a b : p + a + b <= len (stream tree) -> sub tree p a ++ sub tree (p + a) b = sub tree p (a + b).
Proof using.
  intros H. unfold sub. rewrite (N.add_comm p a), <- dropN_dropN.
  set (x := dropN p (stream tree)). assert (Hx : a + b <= len x) by (unfold x; rewrite len_dropN; lia). clearbody x.
  rewrite <- (takeN_dropN a (takeN (a + b) x)). rewrite takeN_takeN. rewrite N.min_l by lia. f_equal.
  rewrite <- (takeN_dropN (a + b) x) at 1. rewrite dropN_app_le by (rewrite len_takeN; lia).
  rewrite takeN_app_exact; [reflexivity|]. rewrite len_dropN, len_takeN. lia.
Qed.

Lemma sub_drop p a b : p + a + b <= len (stream tree) -> dropN a (sub tree p (a + b)) = sub tree (p + a) b.
Proof using. intros H. rewrite <- sub_app by exact H. apply dropN_app_exact. apply len_sub. lia. Qed.
Lemma sub_take p a b : p + a + b <= len (stream tree) -> takeN a (sub tree p (a + b)) = sub tree p a.
Proof using. intros H. rewrite <- sub_app by exact H. apply takeN_app_exact. apply len_sub. lia. Qed.

(** Keys are distinct: they tell the region. *)
Lemma key_index i j r r' : nth_error tree i = Some r -> nth_error tree j = Some r' -> r_key r = r_key r' -> i = j /\ r = r'.
Proof using Htree.
  intros Hi Hj Hk. destruct Htree as [Hd _].
  assert (i = j).
  { apply (proj1 (NoDup_nth_error (map r_key tree)) Hd). { rewrite map_length. apply nth_error_Some. congruence. }
    rewrite !nth_error_map, Hi, Hj. cbn. congruence. }
  subst j. split; [reflexivity|congruence].
Qed.

Lemma here_same p q l l' r r' : here tree p l r -> here tree q l' r' -> l_key l = l_key l' -> r = r' /\ p + l_off l' = q + l_off l.
Proof using Htree.
  intros (i & Hi & Ki & ->) (j & Hj & Kj & ->) Hk. destruct (key_index i j r r' Hi Hj ltac:(congruence)) as [<- <-]. split; [reflexivity|lia].
Qed.

Lemma here_le p l r n : here tree p l r -> l_off l + n <= len (r_data r) -> p + n <= len (stream tree).
Proof using. intros (i & Hi & _ & ->) Hn. pose proof (base_le i r Hi). lia. Qed.

Lemma here_sub p l r n : here tree p l r -> l_off l + n <= len (r_data r) -> sub tree p n = takeN n (dropN (l_off l) (r_data r)).
Proof using. intros (i & Hi & _ & ->) Hn. apply sub_region; assumption. Qed.

Lemma here_advance p l r n : here tree p l r -> here tree (p + n) (loc_advance n l) r.
Proof using. intros (i & Hi & Hk & ->). exists i. cbn [loc_advance l_key l_off]. repeat split; [exact Hi|exact Hk|lia]. Qed.

Lemma here_resize p l r n : here tree p l r -> here tree p (loc_resize n l) r.
Proof using. intros (i & Hi & Hk & ->). exists i. cbn [loc_resize l_key l_off]. repeat split; assumption. Qed.

Lemma describes_le b p o : describes tree b p o -> o <> [] -> p + origin_bytes o <= len (stream tree).
Proof using.
  induction 1 as [p|p l o r Hh Ht Hs Hl Hd IH]; intros Ho; [contradiction|]. rewrite origin_bytes_cons.
  destruct o as [|x o]. { change (origin_bytes []) with 0. pose proof (here_le p l r (l_size l) Hh Hl). lia. }
  specialize (IH ltac:(discriminate)). lia.
Qed.

Lemma describes_pos b p o : describes tree b p o -> Forall (fun x => 0 < l_size x) o.
Proof using. induction 1; constructor; assumption. Qed.

Lemma describes_weaken b p o : describes tree b p o -> describes tree false p o.
Proof using. induction 1 as [|p l o r Hh Ht Hs Hl Hd IH]; econstructor; try eassumption. discriminate. Qed.

Lemma pos_bytes_0 o : Forall (fun x => 0 < l_size x) o -> origin_bytes o = 0 -> o = [].
Proof using. intros H E. destruct H as [|l o Hl Ho]; [reflexivity|]. rewrite origin_bytes_cons in E. lia. Qed.

Lemma origin_put_bytes o l : origin_bytes (origin_put o l) = origin_bytes o + l_size l.
Proof using.
  induction o as [|a o IH]; [cbn; lia|]. destruct o as [|b o].
  - cbn [origin_put]. destruct (_ && _); cbn; lia.
  - change (origin_put (a :: b :: o) l) with (a :: origin_put (b :: o) l). rewrite !origin_bytes_cons, IH, origin_bytes_cons. lia.
Qed.

Lemma describes_put p o l r : describes tree true p o -> here tree (p + origin_bytes o) l r -> l_table l = r_table r -> 0 < l_size l ->
  l_off l + l_size l <= len (r_data r) -> describes tree true p (origin_put o l).
Proof using Htree.
  revert p. induction o as [|a o IH]; intros p Hd Hh Ht Hs Hl.
  - cbn [origin_put]. change (origin_bytes []) with 0 in Hh. rewrite N.add_0_r in Hh. econstructor; [exact Hh|auto|exact Hs|exact Hl|constructor].
  - inversion Hd as [|p' l' o' r' Ha Hat Has Hal Hdo]; subst p' l' o'. destruct o as [|b o].
    + cbn [origin_put]. rewrite origin_bytes_cons in Hh. change (origin_bytes []) with 0 in Hh. rewrite N.add_0_r in Hh.
      destruct (N.eqb_spec (l_key a) (l_key l)) as [Ek|Ek]; cbn [andb].
      * destruct (N.eqb_spec (l_off a + l_size a) (l_off l)) as [Eo|Eo].
        -- destruct (here_same _ _ _ _ _ _ Ha Hh Ek) as [<- _]. apply (describes_cons tree true p _ [] r'); cbn [l_key l_table l_off l_size].
           ++ destruct Ha as (i & Hi & Hk & Hp). exists i. cbn [l_key l_off]. split; [exact Hi|split; [exact Hk|exact Hp]].
           ++ exact Hat.
           ++ lia.
           ++ lia.
           ++ constructor.
        -- econstructor; try eassumption. econstructor; [exact Hh|auto|exact Hs|exact Hl|constructor].
      * econstructor; try eassumption. econstructor; [exact Hh|auto|exact Hs|exact Hl|constructor].
    + change (origin_put (a :: b :: o) l) with (a :: origin_put (b :: o) l). econstructor; try eassumption.
      apply IH; try assumption. rewrite origin_bytes_cons in Hh. rewrite <- N.add_assoc. exact Hh.
Qed.

Lemma describes_concat p o : forall t n, describes tree true p t -> describes tree true (p + origin_bytes t) o -> 0 < n -> n <= origin_bytes o ->
  describes tree true p (origin_concat t o n) /\ origin_bytes (origin_concat t o n) = origin_bytes t + n.
Proof using Htree.
  induction o as [|l o IH]; intros t n Ht Ho Hn Hle; [change (origin_bytes []) with 0 in Hle; lia|]. rewrite origin_bytes_cons in Hle.
  inversion Ho as [|p' l' o' r' Ha Hat Has Hal Hdo]; subst p' l' o'. cbn [origin_concat].
  destruct (N.ltb_spec n (l_size l)) as [Hlt|Hge].
  - cbn [loc_resize l_size]. rewrite N.sub_diag, N.eqb_refl. rewrite origin_put_bytes. cbn [l_size]. split; [|reflexivity].
    apply (describes_put p t _ r'); cbn [loc_resize l_size l_off l_table]; [exact Ht|apply here_resize, Ha|apply Hat; reflexivity|exact Hn|lia].
  - assert (Hp : describes tree true p (origin_put t l)) by (apply (describes_put p t _ r'); auto).
    destruct (N.eqb_spec (n - l_size l) 0) as [E|E].
    + rewrite origin_put_bytes. split; [exact Hp|lia].
    + destruct (IH (origin_put t l) (n - l_size l)) as [A B]; [exact Hp|rewrite origin_put_bytes, N.add_assoc; exact Hdo|lia|lia|].
      split; [exact A|]. rewrite B, origin_put_bytes. lia.
Qed.

Lemma describes_drop b p o n : describes tree b p o -> n <= origin_bytes o ->
  describes tree b (p + n) (origin_drop o n) /\ origin_bytes (origin_drop o n) = origin_bytes o - n.
Proof using.
  intros H. revert n. induction H as [p|p l o r Hh Ht Hs Hl Hd IH]; intros n Hn; [split; [constructor|reflexivity]|].
  rewrite origin_bytes_cons in Hn. cbn [origin_drop]. destruct (N.ltb_spec n (l_size l)) as [Hlt|Hge].
  - split; [|rewrite !origin_bytes_cons; cbn [loc_advance l_size]; lia].
    econstructor; cbn [loc_advance l_size l_off l_table]; [apply here_advance, Hh|exact Ht|lia|lia|].
    replace (p + n + (l_size l - n)) with (p + l_size l) by lia. exact Hd.
  - destruct (IH (n - l_size l)) as [A B]; [lia|]. replace (p + l_size l + (n - l_size l)) with (p + n) in A by lia.
    split; [exact A|]. rewrite B, origin_bytes_cons. lia.
Qed.

Lemma describes_advance b p o n : describes tree b p o -> n <= origin_bytes o ->
  exists o', origin_advance o n = Ok o' /\ describes tree b (p + n) o' /\ origin_bytes o' = origin_bytes o - n.
Proof using.
  intros H Hn. unfold origin_advance. destruct (N.eqb_spec n 0) as [->|H0].
  { exists o. rewrite N.add_0_r, N.sub_0_r. repeat split. exact H. }
  destruct (N.ltb_spec (origin_bytes o) n); [lia|]. destruct (N.eqb_spec n (origin_bytes o)) as [->|Hne].
  { exists []. repeat split; [constructor|]. change (origin_bytes []) with 0. lia. }
  exists (origin_drop o n). split; [reflexivity|]. apply describes_drop; [exact H|lia].
Qed.

Lemma describes_extract p o n : describes tree true p o -> 0 < n -> n <= origin_bytes o ->
  exists o', origin_extract o n = Ok o' /\ describes tree true p o' /\ origin_bytes o' = n.
Proof using Htree.
  intros H H0 Hn. unfold origin_extract. destruct (N.eqb_spec n 0); [lia|]. destruct (N.ltb_spec (origin_bytes o) n); [lia|].
  exists (origin_concat [] o n). split; [reflexivity|].
  destruct (describes_concat p o [] n) as [A B]; [constructor|change (origin_bytes []) with 0; rewrite N.add_0_r; exact H|exact H0|exact Hn|].
  split; [exact A|exact B].
Qed.

(** Back from an advanced origin: the first location was looked at. *)
Lemma advance_back p h o n r : here tree p h r -> 0 < n -> n <= l_size h -> l_off h + n <= len (r_data r) -> Forall (fun x => 0 < l_size x) (h :: o) ->
  exists o', origin_advance (h :: o) n = Ok o' /\ Forall (fun x => 0 < l_size x) o' /\ n + origin_bytes o' = origin_bytes (h :: o) /\
  (describes tree false (p + n) o' -> describes tree false p (h :: o)).
Proof using Htree.
  intros Hh H0 Hn Hr Hp. inversion Hp as [|x o' Hs Ho]; subst x o'. unfold origin_advance. destruct (N.eqb_spec n 0); [lia|].
  rewrite origin_bytes_cons. destruct (N.ltb_spec (l_size h + origin_bytes o) n); [lia|].
  destruct (N.eqb_spec n (l_size h + origin_bytes o)) as [E|E].
  { exists []. assert (Eo : origin_bytes o = 0) by lia. apply pos_bytes_0 in Eo; [|exact Ho]. subst o. change (origin_bytes []) with 0 in *.
    split; [reflexivity|]. split; [constructor|]. split; [lia|]. intros _. econstructor; [exact Hh|discriminate|exact Hs|lia|constructor]. }
  exists (origin_drop (h :: o) n). split; [reflexivity|]. cbn [origin_drop]. destruct (N.ltb_spec n (l_size h)) as [Hlt|Hge].
  - split; [constructor; [cbn; lia|exact Ho]|]. split; [rewrite origin_bytes_cons; cbn [loc_advance l_size]; lia|]. intros Hd.
    inversion Hd as [|p' l' o' r' Ha Hat Has Hal Hdo]; subst p' l' o'. cbn [loc_advance l_size l_off] in *.
    destruct (here_same _ _ _ _ _ _ Hh Ha eq_refl) as [<- _].
    econstructor; [exact Hh|discriminate|exact Hs|lia|]. replace (p + l_size h) with (p + n + (l_size h - n)) by lia. exact Hdo.
  - assert (En : n = l_size h) by lia. subst n. rewrite N.sub_diag.
    assert (Ed : origin_drop o 0 = o).
    { destruct o as [|x o]; [reflexivity|]. cbn [origin_drop]. inversion Ho; subst. destruct (N.ltb_spec 0 (l_size x)); [|lia].
      unfold loc_advance. rewrite N.add_0_r, N.sub_0_r. destruct x; reflexivity. }
    rewrite Ed. split; [exact Ho|]. split; [lia|]. intros Hd. econstructor; [exact Hh|discriminate|exact Hs|exact Hr|exact Hd].
Qed.
End Tree.
