(** Proofs about the chunker model. *)
From Verif Require Import Base Chunker ChunkerSpec.
Local Open Scope N_scope.

Lemma testbit_high x n : x < two32 -> 32 <= n -> N.testbit x n = false.
Proof.
  intros Hx Hn. destruct (N.eq_dec x 0) as [->|H0]; [apply N.bits_0|].
  apply N.bits_above_log2. apply N.lt_le_trans with 32; [|exact Hn].
  apply N.log2_lt_pow2; [lia|]. exact Hx.
Qed.

Lemma rol32_spec x i n : x < two32 ->
  N.testbit (rol32 x i) n = (n <? 32) && N.testbit x ((n + 32 - i mod 32) mod 32).
Proof.
  intros Hx. unfold rol32. cbv zeta.
  assert (Hi : i mod 32 < 32) by (apply N.mod_lt; lia).
  generalize dependent (i mod 32). clear i. intros i Hi.
  destruct (N.eqb_spec i 0) as [->|H0].
  - destruct (N.ltb_spec n 32) as [Hn|Hn]; cbn [andb].
    + f_equal. symmetry. replace (n + 32 - 0) with (n + 1 * 32) by lia. rewrite N.mod_add by lia.
      apply N.mod_small; lia.
    + apply testbit_high; [exact Hx|exact Hn].
  - rewrite N.lor_spec, N.shiftr_spec'.
    change two32 with (2 ^ 32).
    destruct (N.ltb_spec n 32) as [Hn|Hn]; cbn [andb].
    + rewrite N.mod_pow2_bits_low by lia.
      destruct (N.ltb_spec n i) as [Hlt|Hge].
      * rewrite N.shiftl_spec_low by lia. cbn [orb].
        f_equal. rewrite N.mod_small by lia. lia.
      * rewrite N.shiftl_spec_high' by lia.
        rewrite (testbit_high x (n + (32 - i))) by (auto; lia). rewrite orb_false_r.
        f_equal. replace (n + 32 - i) with ((n - i) + 1 * 32) by lia.
        rewrite N.mod_add by lia. rewrite N.mod_small; lia.
    + rewrite N.mod_pow2_bits_high by lia. cbn [orb]. apply testbit_high; [exact Hx|lia].
Qed.

Lemma rol32_lt x i : x < two32 -> rol32 x i < two32.
Proof.
  intros Hx. destruct (N.eq_dec (rol32 x i) 0) as [->|Hn]; [reflexivity|].
  change two32 with (2 ^ 32). apply N.log2_lt_pow2; [lia|].
  destruct (N.lt_ge_cases (N.log2 (rol32 x i)) 32) as [H|H]; [exact H|exfalso].
  pose proof (N.bit_log2 _ Hn) as Hb. rewrite rol32_spec in Hb by exact Hx.
  destruct (N.ltb_spec (N.log2 (rol32 x i)) 32); [lia|discriminate Hb].
Qed.

Lemma lxor_lt a b : a < two32 -> b < two32 -> N.lxor a b < two32.
Proof.
  intros Ha Hb. destruct (N.eq_dec (N.lxor a b) 0) as [->|Hn]; [reflexivity|].
  change two32 with (2 ^ 32). apply N.log2_lt_pow2; [lia|].
  destruct (N.lt_ge_cases (N.log2 (N.lxor a b)) 32) as [H|H]; [exact H|exfalso].
  pose proof (N.bit_log2 _ Hn) as Hbit. rewrite N.lxor_spec in Hbit.
  rewrite (testbit_high a), (testbit_high b) in Hbit by assumption. discriminate Hbit.
Qed.

Lemma rol32_lxor a b i : a < two32 -> b < two32 ->
  rol32 (N.lxor a b) i = N.lxor (rol32 a i) (rol32 b i).
Proof.
  intros Ha Hb. apply N.bits_inj; intros n.
  rewrite N.lxor_spec, !rol32_spec by (try apply lxor_lt; assumption).
  rewrite N.lxor_spec. destruct (n <? 32); reflexivity.
Qed.

Lemma rol32_rol32 x i j : x < two32 -> rol32 (rol32 x i) j = rol32 x (i + j).
Proof.
  intros Hx. apply N.bits_inj; intros n.
  rewrite !rol32_spec by (try apply rol32_lt; assumption).
  destruct (N.ltb_spec n 32) as [Hn|Hn]; cbn [andb]; [|reflexivity].
  assert (Hm : (n + 32 - j mod 32) mod 32 < 32) by (apply N.mod_lt; lia).
  destruct (N.ltb_spec ((n + 32 - j mod 32) mod 32) 32) as [_ | ]; [|lia]. cbn [andb].
  f_equal. lia.
Qed.

Lemma rol32_0 i : rol32 0 i = 0.
Proof. unfold rol32. cbv zeta. destruct (i mod 32 =? 0); [reflexivity|]. rewrite N.shiftl_0_l, N.shiftr_0_l. reflexivity. Qed.

Lemma tab_lt b : tab b < two32.
Proof.
  unfold tab. destruct (nth_in_or_default (N.to_nat b) buzhash_table 0) as [H| ->]; [|reflexivity].
  assert (Hall : forallb (fun x => x <? two32) buzhash_table = true) by (vm_compute; reflexivity).
  rewrite forallb_forall in Hall. apply N.ltb_lt, Hall, H.
Qed.

Lemma buz_lt l : buz l < two32.
Proof. induction l as [|b l IH]; cbn [buz]; [reflexivity|]. apply lxor_lt; [apply rol32_lt, tab_lt|exact IH]. Qed.

Lemma start_loop_spec h q : q <> [] -> start_loop h q = Ok (N.lxor h (buz q)).
Proof.
  revert h; induction q as [|b q IH]; intros h Hq; [congruence|].
  destruct q as [|b' q].
  - cbn [start_loop buz]. rewrite N.lxor_0_r. rewrite len_nil. reflexivity.
  - change (start_loop h (b :: b' :: q)) with (start_loop (N.lxor h (rol32 (tab b) (len (b' :: q)))) (b' :: q)).
    rewrite IH by discriminate. cbn [buz]. rewrite N.lxor_assoc. reflexivity.
Qed.

(** Appending a byte rotates by one. *)
Lemma buz_snoc l b : buz (l ++ [b]) = N.lxor (rol32 (buz l) 1) (tab b).
Proof.
  induction l as [|a l IH]; cbn [app buz].
  - rewrite rol32_0. rewrite N.lxor_0_r, N.lxor_0_l. reflexivity.
  - rewrite IH, rol32_lxor, rol32_rol32 by (try apply rol32_lt; apply tab_lt || apply buz_lt).
    rewrite len_app. change (len [b]) with 1. rewrite N.lxor_assoc. reflexivity.
Qed.

(** Rolling = dropping the first byte and appending a new one. *)
Lemma roll_spec a l b : ca_chunker_roll (buz (a :: l)) (len (a :: l)) a b = buz (l ++ [b]).
Proof.
  unfold ca_chunker_roll. rewrite buz_snoc. cbn [buz].
  rewrite rol32_lxor, rol32_rol32 by (try apply rol32_lt; apply tab_lt || apply buz_lt).
  rewrite len_cons, (N.add_comm 1). f_equal.
  rewrite (N.lxor_comm (rol32 (tab a) (len l + 1))), N.lxor_assoc, N.lxor_nilpotent, N.lxor_0_r. reflexivity.
Qed.

(** ** First cut, byte by byte *)
Fixpoint first_cut (c : cfg) (cur p : list N) : option N :=
  match p with
  | [] => None
  | b :: p =>
    if cut_here c (cur ++ [b]) then Some 1
    else option_map (N.add 1) (first_cut c (cur ++ [b]) p)
  end.

Definition no_cut (c : cfg) (cur a : list N) : Prop :=
  forall n, (1 <= n <= length a)%nat -> cut_here c (cur ++ firstn n a) = false.

Lemma first_cut_app c cur a p : no_cut c cur a ->
  first_cut c cur (a ++ p) = option_map (N.add (len a)) (first_cut c (cur ++ a) p).
Proof.
  revert cur; induction a as [|b a IH]; intros cur H; cbn [app].
  - rewrite app_nil_r, len_nil. destruct (first_cut c cur p); reflexivity.
  - cbn [first_cut]. pose proof (H 1%nat ltac:(cbn; lia)) as H1. cbn [firstn] in H1. rewrite H1.
    rewrite IH.
    + rewrite <- app_assoc. cbn [app]. rewrite len_cons.
      destruct (first_cut c (cur ++ b :: a) p); cbn [option_map]; [f_equal; lia|reflexivity].
    + intros n Hn. rewrite <- app_assoc. apply (H (S n)). cbn [length]. lia.
Qed.

Lemma no_cut_short c cur a : is_fixed c = false -> len cur + len a < N.max (c_min c) 48 -> no_cut c cur a.
Proof.
  intros Hf Hl n Hn. unfold cut_here. rewrite Hf.
  replace (N.max (c_min c) 48 <=? len (cur ++ firstn n a)) with false; [reflexivity|].
  symmetry. apply N.leb_gt. rewrite len_app. unfold len in *. rewrite firstn_length. lia.
Qed.

Lemma first_cut_none_short c cur p : is_fixed c = false -> len cur + len p < N.max (c_min c) 48 ->
  first_cut c cur p = None.
Proof.
  intros Hf Hl. rewrite <- (app_nil_r p). rewrite first_cut_app by (apply no_cut_short; assumption). reflexivity.
Qed.

Lemma last48_len l : (48 <= length l)%nat -> length (last48 l) = 48%nat.
Proof. intros H. unfold last48. rewrite skipn_length. lia. Qed.

Lemma last48_snoc l b x w : last48 l = x :: w -> (48 <= length l)%nat -> last48 (l ++ [b]) = w ++ [b].
Proof.
  intros H Hl. unfold last48 in *. rewrite app_length. cbn [length].
  replace (length l + 1 - 48)%nat with (S (length l - 48)) by lia.
  rewrite skipn_app. replace (S (length l - 48) - length l)%nat with 0%nat by lia.
  rewrite skipn_O. f_equal.
  assert (Hs : forall m (k : list N), skipn (S m) k = tl (skipn m k)).
  { intros m; induction m as [|m IHm]; intros k; [destruct k; reflexivity|]. destruct k as [|y k]; [reflexivity|].
    change (skipn (S (S m)) (y :: k)) with (skipn (S m) k). rewrite IHm. reflexivity. }
  rewrite Hs, H. reflexivity.
Qed.

(** ** Representation invariant: state [s] after consuming [cur] since the last cut. *)
Definition skip_of (c : cfg) : N := if WINDOW <? c_min c then c_min c - WINDOW else 0.

Definition rep_window (c : cfg) (s : chunker) (cur : list N) : Prop :=
  length (ck_window s) = 48%nat /\
  ck_csize s = len cur /\
  (* filling *)
  ((len cur < skip_of c + 48 /\ ck_h s = 0 /\ ck_wsize s = len cur - skip_of c /\
    takeN (ck_wsize s) (ck_window s) = dropN (skip_of c) cur)
   \/
   (* full: the ring, read from idx, is the last 48 bytes *)
   (skip_of c + 48 <= len cur /\ ck_wsize s = 48 /\ ck_h s = buz (last48 cur) /\
    let idx := (len cur - skip_of c) mod 48 in
    dropN idx (ck_window s) ++ takeN idx (ck_window s) = last48 cur)).

Definition Rep (c : cfg) (s : chunker) (cur : list N) : Prop :=
  if is_fixed c then ck_csize s = len cur /\ len cur < c_avg c /\ length (ck_window s) = 48%nat
  else rep_window c s cur.

Lemma cfg_ok_asserts c : cfg_ok c = true -> cfg_asserts c = true.
Proof. unfold cfg_ok, cfg_asserts, LIMIT_MIN, LIMIT_MAX. intros H. lia. Qed.

Lemma skip48 c : skip_of c + 48 = N.max (c_min c) 48.
Proof. unfold skip_of, WINDOW. destruct (N.ltb_spec 48 (c_min c)); lia. Qed.

Lemma rep_init c : cfg_ok c = true -> forall w, length w = 48%nat -> Rep c (mkChunker 0 0 0 w) [].
Proof.
  intros Hc w Hw. unfold Rep. destruct (is_fixed c) eqn:Hf.
  - unfold cfg_ok in Hc. cbn [ck_csize ck_window]. change (len []) with 0. split; [reflexivity|split;[lia|exact Hw]].
  - split; [exact Hw|]. split; [reflexivity|]. left. cbn [ck_h ck_wsize ck_window]. rewrite len_nil.
    repeat split; try lia.  unfold takeN. cbn [N.to_nat firstn]. unfold dropN. rewrite skipn_nil. reflexivity.
Qed.

Lemma shall_break_spec c csize v : cfg_ok c = true ->
  shall_break c csize v = Ok ((c_max c <=? csize) || (v mod c_disc c =? c_disc c - 1)).
Proof.
  intros Hc. unfold shall_break, cfg_ok in *. destruct (c_max c <=? csize); [reflexivity|].
  destruct (N.eqb_spec (c_disc c) 0); [lia|]. reflexivity.
Qed.

Lemma write_at_length w off src : off + len src <= len w -> length (write_at w off src) = length w.
Proof. intros H. unfold write_at. rewrite !app_length. unfold takeN, dropN, len in *. rewrite firstn_length, skipn_length. lia. Qed.

(** The ring step: writing the new byte over the oldest one and advancing the index. *)
Lemma ring_step w idx x (b : N) rest : length w = 48%nat -> idx < 48 ->
  dropN idx w ++ takeN idx w = x :: rest ->
  nth (N.to_nat idx) w 0 = x /\
  let idx' := if idx + 1 =? 48 then 0 else idx + 1 in
  dropN idx' (write_at w idx [b]) ++ takeN idx' (write_at w idx [b]) = rest ++ [b].
Proof.
  intros Hw Hi H.
  assert (Hlen : len w = 48) by (unfold len; rewrite Hw; reflexivity).
  destruct (dropN idx w) as [|y d] eqn:Hd.
  { pose proof (len_dropN idx w) as Hl. rewrite Hd, len_nil in Hl. lia. }
  cbn [app] in H. injection H as -> <-.
  assert (Hsplit : w = takeN idx w ++ x :: d) by (rewrite <- Hd, takeN_dropN; reflexivity).
  assert (Htl : len (takeN idx w) = idx) by (rewrite len_takeN; lia).
  assert (Hdl : len d = 47 - idx).
  { pose proof (f_equal len Hsplit) as HH. rewrite len_app, len_cons, Htl, Hlen in HH. lia. }
  split.
  - rewrite Hsplit at 1. rewrite app_nth2; [|unfold len in Htl; lia].
    replace (N.to_nat idx - length (takeN idx w))%nat with 0%nat; [reflexivity|unfold len in Htl; lia].
  - cbv zeta.
    assert (Hw' : write_at w idx [b] = takeN idx w ++ b :: d).
    { unfold write_at. cbn [app]. f_equal. f_equal.
      replace (idx + len [b]) with (1 + idx) by (change (len [b]) with 1; lia).
      rewrite <- dropN_dropN, Hd. reflexivity. }
    rewrite Hw'. destruct (N.eqb_spec (idx + 1) 48) as [He|He].
    + rewrite dropN_0, takeN_0, app_nil_r.
      assert (d = []) by (apply len_zero_nil; lia). subst d. reflexivity.
    + rewrite dropN_app_ge, takeN_app_ge by lia. rewrite Htl.
      replace (idx + 1 - idx) with 1 by lia. change (dropN 1 (b :: d)) with d.
      change (takeN 1 (b :: d)) with [b]. rewrite app_assoc. reflexivity.
Qed.

(** The outcome of a scan, relative to the byte-wise specification. *)
Definition scan_result (c : cfg) (cur p : list N) (k : N) (r : res (option N * chunker)) : Prop :=
  match first_cut c cur p with
  | Some n => exists w, length w = 48%nat /\ r = Ok (Some (k + n), mkChunker 0 0 0 w)
  | None => exists s', r = Ok (None, s') /\ Rep c s' (cur ++ p)
  end.

Ltac close_some := match goal with |- Ok (Some ?a, _) = Ok (Some ?b, _) => replace a with b by lia; reflexivity end.

Lemma scan_loop_ok c : cfg_ok c = true -> is_fixed c = false ->
  forall p cur h w idx k,
  skip_of c + 48 <= len cur ->
  length w = 48%nat -> idx = (len cur - skip_of c) mod 48 ->
  h = buz (last48 cur) ->
  dropN idx w ++ takeN idx w = last48 cur ->
  scan_result c cur p k (scan_loop c h 48 (len cur) w idx k p).
Proof.
  intros Hc Hf p; induction p as [|b p IH]; intros cur h w idx k Hlen Hw Hidx Hh Hring.
  - unfold scan_result. cbn [first_cut scan_loop]. eexists; split; [reflexivity|].
    rewrite app_nil_r. unfold Rep. rewrite Hf. split; [exact Hw|]. split; [reflexivity|].
    right. cbn [ck_wsize ck_h ck_window]. rewrite <- Hidx. repeat split; auto.
  - assert (Hcl : (48 <= length cur)%nat) by (unfold len in Hlen; lia).
    destruct (last48 cur) as [|x rest] eqn:Hl.
    { pose proof (last48_len cur Hcl) as HH. rewrite Hl in HH. discriminate. }
    assert (Hi48 : idx < 48) by (subst idx; apply N.mod_lt; lia).
    destruct (ring_step w idx x b rest Hw Hi48 Hring) as [Hnth Hnext].
    pose proof (last48_snoc cur b x rest Hl Hcl) as Hl'.
    assert (Hroll : ca_chunker_roll h 48 (nth (N.to_nat idx) w 0) b = buz (last48 (cur ++ [b]))).
    { rewrite Hnth, Hh, Hl'. rewrite <- (roll_spec x rest b). f_equal.
      pose proof (last48_len cur Hcl) as HH. rewrite Hl in HH. unfold len. rewrite HH. reflexivity. }
    unfold scan_result. cbn [first_cut scan_loop]. cbv zeta. rewrite Hroll, shall_break_spec by exact Hc.
    cbn [bind].
    assert (Hcut : cut_here c (cur ++ [b]) = (c_max c <=? len cur + 1) ||
              (buz (last48 (cur ++ [b])) mod c_disc c =? c_disc c - 1)).
    { unfold cut_here. rewrite Hf, len_app. change (len [b]) with 1.
      replace (N.max (c_min c) 48 <=? len cur + 1) with true; [reflexivity|].
      symmetry. apply N.leb_le. rewrite <- skip48. lia. }
    rewrite <- Hcut. destruct (cut_here c (cur ++ [b])) eqn:Hb.
    + exists w. split; [exact Hw|reflexivity].
    + pose proof (IH (cur ++ [b]) (buz (last48 (cur ++ [b]))) (write_at w idx [b])
        (if idx + 1 =? WINDOW then 0 else idx + 1) (k + 1)) as IH'.
      rewrite len_app in IH'. change (len [b]) with 1 in IH'.
      specialize (IH' ltac:(lia)).
      assert (Hwl : length (write_at w idx [b]) = 48%nat).
      { rewrite write_at_length; [exact Hw|]. change (len [b]) with 1. unfold len. rewrite Hw. lia. }
      specialize (IH' Hwl).
      assert (Hi' : (if idx + 1 =? WINDOW then 0 else idx + 1) = (len cur + 1 - skip_of c) mod 48).
      { unfold WINDOW. clear -Hidx Hlen. destruct (N.eqb_spec (idx + 1) 48); lia. }
      specialize (IH' Hi' eq_refl). specialize (IH' (eq_trans Hnext (eq_sym Hl'))).
      unfold scan_result in IH'. destruct (first_cut c (cur ++ [b]) p) as [n|] eqn:Hfc; cbn [option_map].
      * destruct IH' as (w' & Hw' & He). exists w'. split; [exact Hw'|]. rewrite He. close_some.
      * destruct IH' as (s' & He & Hr). exists s'. split; [exact He|]. rewrite <- app_assoc in Hr. exact Hr.
Qed.

Lemma dropN_last48 c cur : skip_of c + 48 = len cur -> dropN (skip_of c) cur = last48 cur.
Proof. intros H. unfold dropN, last48. f_equal. unfold len in H. lia. Qed.

(** Entering at the window stage with the skip already done. *)
Lemma scan_window_ok c : cfg_ok c = true -> is_fixed c = false ->
  forall s cur k q, skip_of c <= len cur -> rep_window c s cur ->
  scan_result c cur q k (scan_window c (skip_of c) s k q).
Proof.
  intros Hc Hf s cur k q Hskip (Hw & Hcs & Hcase). unfold scan_window, WINDOW.
  destruct Hcase as [(Hlt & Hh & Hws & Hwin) | (Hge & Hws & Hh & Hring)].
  - destruct (N.ltb_spec (ck_wsize s) 48) as [Hlt'|]; [|lia]. cbv zeta.
    set (m := N.min (48 - ck_wsize s) (len q)).
    set (w := write_at (ck_window s) (ck_wsize s) (takeN m q)).
    assert (Hlw : len (ck_window s) = 48) by (unfold len; rewrite Hw; reflexivity).
    assert (Hm : len (takeN m q) = m) by (rewrite len_takeN; lia).
    assert (Hwl : length w = 48%nat).
    { unfold w. rewrite write_at_length; [exact Hw|]. rewrite Hm. lia. }
    assert (Hpre : takeN (ck_wsize s + m) w = dropN (skip_of c) (cur ++ takeN m q)).
    { unfold w, write_at. rewrite app_assoc. rewrite takeN_app_exact.
      - rewrite Hwin. rewrite dropN_app_le by lia. reflexivity.
      - rewrite len_app, Hm, len_takeN. lia. }
    assert (Hnc : len cur + len (takeN m q) < N.max (c_min c) 48 -> no_cut c cur (takeN m q))
      by (apply no_cut_short; exact Hf).
    destruct (N.ltb_spec (ck_wsize s + m) 48) as [Hshort|Hfull].
    + assert (Hmq : m = len q) by lia.
      assert (Htq : takeN m q = q) by (apply takeN_all; lia).
      unfold scan_result. rewrite first_cut_none_short; [|exact Hf|rewrite <- skip48; lia].
      eexists; split; [reflexivity|]. unfold Rep. rewrite Hf.
      split; [exact Hwl|]. cbn [ck_csize ck_wsize ck_h ck_window]. split; [rewrite len_app; lia|].
      left. rewrite len_app. split; [lia|]. split; [exact Hh|]. split; [lia|].
      rewrite Hpre, Htq. reflexivity.
    + assert (Hme : m = 48 - ck_wsize s) by lia.
      set (cur' := cur ++ takeN m q) in *.
      assert (Hcl : len cur' = skip_of c + 48) by (unfold cur'; rewrite len_app, Hm; lia).
      assert (Hcl' : (48 <= length cur')%nat) by (unfold len in Hcl; lia).
      unfold ca_chunker_start. rewrite (cfg_ok_asserts c Hc).
      assert (Hd : dropN (skip_of c) cur' = last48 cur') by (apply dropN_last48; lia).
      rewrite Hpre, Hd. rewrite start_loop_spec.
      2:{ pose proof (last48_len cur' Hcl') as HH. destruct (last48 cur'); [discriminate|congruence]. }
      cbn [bind]. rewrite Hh, N.lxor_0_l, shall_break_spec by exact Hc. cbn [bind].
      (* the first bytes up to the last one do not cut; then the decision at full window *)
      assert (Hmpos : 1 <= m) by lia.
      assert (Hsplitq : exists q1 b, takeN m q = q1 ++ [b]).
      { destruct (takeN m q) eqn:E using rev_ind; [rewrite len_nil in Hm; lia|eauto]. }
      destruct Hsplitq as (q1 & b & Hq1).
      assert (Hq : q = q1 ++ b :: dropN m q).
      { rewrite <- (takeN_dropN m q) at 1. rewrite Hq1, <- app_assoc. reflexivity. }
      assert (Hq1l : len q1 + 1 = m) by (rewrite <- Hm, Hq1, len_app; reflexivity).
      assert (Hcut : cut_here c cur' = (c_max c <=? ck_csize s + m) ||
              (buz (last48 cur') mod c_disc c =? c_disc c - 1)).
      { unfold cut_here. rewrite Hf, Hcl, skip48.
        replace (N.max (c_min c) 48 <=? N.max (c_min c) 48) with true by (symmetry; apply N.leb_refl).
        cbn [andb]. f_equal. f_equal. rewrite <- skip48, <- Hcl. unfold cur'. rewrite len_app. lia. }
      assert (Hfc : first_cut c cur q =
        if cut_here c cur' then Some m else option_map (N.add m) (first_cut c cur' (dropN m q))).
      { rewrite Hq at 1. rewrite first_cut_app.
        2:{ apply no_cut_short; [exact Hf|]. rewrite <- skip48. unfold cur' in Hcl. rewrite len_app in Hcl. lia. }
        cbn [first_cut]. rewrite <- app_assoc, <- Hq1. fold cur'.
        destruct (cut_here c cur'); cbn [option_map]; [f_equal; lia|].
        destruct (first_cut c cur' (dropN m q)); cbn [option_map]; [f_equal; lia|reflexivity]. }
      unfold scan_result. rewrite Hfc, <- Hcut.
      destruct (cut_here c cur') eqn:Hb.
      * exists w. split; [exact Hwl|reflexivity].
      * unfold scan_roll.
        replace (ck_csize s + m) with (len cur') by (unfold cur'; rewrite len_app; lia).
        pose proof (scan_loop_ok c Hc Hf (dropN m q) cur' (buz (last48 cur')) w
                      ((len cur' - skip_of c) mod 48) (k + m)) as HL.
        specialize (HL ltac:(lia) Hwl eq_refl eq_refl).
        assert (Hz : (len cur' - skip_of c) mod 48 = 0) by (rewrite Hcl; replace (skip_of c + 48 - skip_of c) with 48 by lia; reflexivity).
        unfold WINDOW. rewrite Hz in *. rewrite dropN_0, takeN_0, app_nil_r in HL.
        assert (Hww : w = last48 cur').
        { rewrite <- Hd, <- Hpre. symmetry. apply takeN_all. unfold len. rewrite Hwl. lia. }
        specialize (HL Hww). unfold scan_result in HL.
        replace (ck_wsize s + m) with 48 by lia.
        destruct (first_cut c cur' (dropN m q)) as [n|]; cbn [option_map].
        -- destruct HL as (w' & Hw' & He). exists w'. split; [exact Hw'|]. rewrite He. close_some.
        -- destruct HL as (s' & He & Hr). exists s'. split; [exact He|].
           unfold cur' in Hr. rewrite <- app_assoc, takeN_dropN in Hr. exact Hr.
  - destruct (N.ltb_spec (ck_wsize s) 48) as [|_]; [lia|].
    unfold scan_roll, WINDOW. rewrite Hcs, Hws, Hh.
    apply scan_loop_ok; auto.
Qed.

Lemma first_cut_fixed c : is_fixed c = true -> forall p cur, len cur < c_avg c ->
  first_cut c cur p = if len cur + len p <? c_avg c then None else Some (c_avg c - len cur).
Proof.
  intros Hf p; induction p as [|b p IH]; intros cur Hl; cbn [first_cut].
  - rewrite len_nil. destruct (N.ltb_spec (len cur + 0) (c_avg c)); [reflexivity|lia].
  - unfold cut_here. rewrite Hf, len_app, (len_cons b p). change (len [b]) with 1.
    destruct (N.eqb_spec (len cur + 1) (c_avg c)) as [He|He].
    + destruct (N.ltb_spec (len cur + (1 + len p)) (c_avg c)); [lia|]. f_equal. lia.
    + rewrite IH; [|rewrite len_app; change (len [b]) with 1; lia].
      rewrite len_app. change (len [b]) with 1.
      destruct (N.ltb_spec (len cur + 1 + len p) (c_avg c)); destruct (N.ltb_spec (len cur + (1 + len p)) (c_avg c)); try lia; cbn [option_map]; [reflexivity|f_equal; lia].
Qed.

Theorem scan_ok c : cfg_ok c = true -> forall s cur p, Rep c s cur ->
  scan_result c cur p 0 (ca_chunker_scan c s p).
Proof.
  intros Hc s cur p HR. unfold ca_chunker_scan, Rep in *. destruct (is_fixed c) eqn:Hf.
  - destruct HR as (Hcs & Hlt & Hw). rewrite Hcs.
    destruct (N.ltb_spec (len cur) (c_avg c)); [|lia]. cbv zeta.
    unfold scan_result. rewrite first_cut_fixed by assumption.
    destruct (N.ltb_spec (len cur + N.min (c_avg c - len cur) (len p)) (c_avg c)).
    + destruct (N.ltb_spec (len cur + len p) (c_avg c)); [|lia].
      eexists; split; [reflexivity|]. unfold Rep. rewrite Hf. cbn [ck_csize ck_window]. rewrite len_app.
      split; [lia|split; [lia|exact Hw]].
    + destruct (N.ltb_spec (len cur + len p) (c_avg c)); [lia|].
      exists (ck_window s). split; [exact Hw|]. unfold scan_now. close_some.
  - pose proof HR as (Hw & Hcs & Hcase).
    assert (Hskipdef : skip_of c = if WINDOW <? c_min c then c_min c - WINDOW else 0) by reflexivity.
    destruct (WINDOW <? c_min c) eqn:Hm.
    + cbv zeta. rewrite <- Hskipdef. rewrite Hcs.
      destruct (N.ltb_spec (len cur) (skip_of c)) as [Hlt|Hge].
      * destruct Hcase as [(Hlt' & Hh & Hws & Hwin)|(Hge & _)]; [|lia].
        destruct (N.leb_spec (len p) (skip_of c - len cur)) as [Hle|Hgt].
        -- unfold scan_result. rewrite first_cut_none_short; [|exact Hf|rewrite <- skip48; lia].
           eexists; split; [reflexivity|]. unfold Rep. rewrite Hf. split; [exact Hw|].
           cbn [ck_csize ck_wsize ck_h ck_window]. rewrite len_app. split; [reflexivity|].
           left. split; [lia|]. split; [exact Hh|]. split; [lia|].
           rewrite dropN_all by (rewrite len_app; lia).
           replace (ck_wsize s) with 0 by lia. apply takeN_0.
        -- set (k := skip_of c - len cur) in *.
           pose proof (scan_window_ok c Hc Hf (mkChunker (ck_h s) (ck_wsize s) (len cur + k) (ck_window s))
             (cur ++ takeN k p) k (dropN k p)) as HW.
           assert (Htk : len (takeN k p) = k) by (rewrite len_takeN; lia).
           rewrite len_app, Htk in HW. specialize (HW ltac:(lia)).
           assert (HR' : rep_window c (mkChunker (ck_h s) (ck_wsize s) (len cur + k) (ck_window s)) (cur ++ takeN k p)).
           { split; [exact Hw|]. cbn [ck_csize ck_wsize ck_h ck_window]. rewrite len_app, Htk. split; [reflexivity|].
             left. split; [lia|]. split; [exact Hh|]. split; [lia|].
             rewrite dropN_all by (rewrite len_app; lia). replace (ck_wsize s) with 0 by lia. apply takeN_0. }
           specialize (HW HR'). unfold scan_result in *.
           assert (Hfc : first_cut c cur p = option_map (N.add k) (first_cut c (cur ++ takeN k p) (dropN k p))).
           { rewrite <- (takeN_dropN k p) at 1. rewrite first_cut_app, Htk; [reflexivity|].
             apply no_cut_short; [exact Hf|]. rewrite <- skip48. lia. }
           rewrite Hfc. destruct (first_cut c (cur ++ takeN k p) (dropN k p)) as [n|]; cbn [option_map].
           ++ destruct HW as (w' & Hw' & He). exists w'. split; [exact Hw'|]. rewrite He. close_some.
           ++ destruct HW as (s' & He & Hr). exists s'. split; [exact He|].
              rewrite <- app_assoc, takeN_dropN in Hr. exact Hr.
      * apply scan_window_ok; auto.
    + replace 0 with (skip_of c) at 2 by (rewrite Hskipdef; reflexivity).
      apply scan_window_ok; auto. rewrite Hskipdef. lia.
Qed.

(** ** The splitting loop *)
Lemma first_cut_bound c cur p n : first_cut c cur p = Some n -> 1 <= n <= len p.
Proof.
  revert cur n; induction p as [|b p IH]; intros cur n; cbn [first_cut]; [discriminate|].
  rewrite len_cons. destruct (cut_here c (cur ++ [b])); [intros [= <-]; lia|].
  destruct (first_cut c (cur ++ [b]) p) as [m|] eqn:E; cbn [option_map]; [|discriminate].
  intros H. assert (n = 1 + m) by congruence. subst n. apply IH in E. lia.
Qed.

Lemma spec_split_first_cut c cur p :
  spec_split c cur p =
  match first_cut c cur p with
  | None => ([], cur ++ p)
  | Some n => let (cs, r) := spec_split c [] (dropN n p) in ((cur ++ takeN n p) :: cs, r)
  end.
Proof.
  revert cur; induction p as [|b p IH]; intros cur; cbn [spec_split first_cut].
  - rewrite app_nil_r. reflexivity.
  - destruct (cut_here c (cur ++ [b])) eqn:Hc.
    + reflexivity.
    + rewrite IH. destruct (first_cut c (cur ++ [b]) p) as [n|] eqn:E; cbn [option_map].
      * assert (Hn : N.to_nat (1 + n) = S (N.to_nat n)) by lia.
        unfold dropN, takeN. rewrite Hn. cbn [skipn firstn]. rewrite <- app_assoc. reflexivity.
      * rewrite <- app_assoc. reflexivity.
Qed.

Definition RepS (c : cfg) (s : split) (cur : list N) : Prop := Rep c (sp_ck s) cur /\ sp_buf s = cur.

Lemma repS_init c : cfg_ok c = true -> RepS c split_init [].
Proof. intros Hc. split; [apply rep_init; [exact Hc|reflexivity]|reflexivity]. Qed.

Lemma write_chunks_ok c : cfg_ok c = true -> forall fuel s cur p, (length p < fuel)%nat -> RepS c s cur ->
  exists s', write_chunks fuel c s p = Ok (fst (spec_split c cur p), s') /\
             RepS c s' (snd (spec_split c cur p)).
Proof.
  intros Hc fuel; induction fuel as [|fuel IH]; intros s cur p Hfuel [HR Hbuf]; [lia|].
  cbn [write_chunks]. destruct (N.eqb_spec (len p) 0) as [H0|H0].
  - assert (p = []) by (apply len_zero_nil, H0). subst p. cbn [spec_split fst snd]. exists s. split; [reflexivity|split; assumption].
  - pose proof (scan_ok c Hc (sp_ck s) cur p HR) as HS. unfold scan_result in HS.
    rewrite spec_split_first_cut.
    destruct (first_cut c cur p) as [n|] eqn:Hfc.
    + destruct HS as (w & Hw & He). rewrite He. cbn [bind]. rewrite N.add_0_l.
      pose proof (first_cut_bound _ _ _ _ Hfc) as Hn.
      destruct (IH (mkSplit (mkChunker 0 0 0 w) []) [] (dropN n p)) as (s' & Hs' & HR').
      * unfold dropN. rewrite skipn_length. unfold len in *. lia.
      * split; [apply rep_init; assumption|reflexivity].
      * rewrite Hs'. cbn [bind]. exists s'. rewrite Hbuf.
        destruct (spec_split c [] (dropN n p)) as [cs r]. cbn [fst snd] in *. split; [reflexivity|exact HR'].
    + destruct HS as (s' & He & HR'). rewrite He. cbn [bind fst snd]. eexists; split; [reflexivity|].
      split; [exact HR'|]. cbn [sp_buf]. rewrite Hbuf. reflexivity.
Qed.

Lemma spec_split_app c cur a b :
  spec_split c cur (a ++ b) =
  (fst (spec_split c cur a) ++ fst (spec_split c (snd (spec_split c cur a)) b),
   snd (spec_split c (snd (spec_split c cur a)) b)).
Proof.
  revert cur; induction a as [|x a IH]; intros cur; cbn [app spec_split fst snd].
  - destruct (spec_split c cur b); reflexivity.
  - destruct (cut_here c (cur ++ [x])).
    + rewrite IH. destruct (spec_split c [] a) as [cs r]. reflexivity.
    + apply IH.
Qed.

Lemma write_pieces_ok c : cfg_ok c = true -> forall ps s cur, RepS c s cur ->
  exists s', write_pieces c s ps = Ok (fst (spec_split c cur (concat ps)), s') /\
             RepS c s' (snd (spec_split c cur (concat ps))).
Proof.
  intros Hc ps; induction ps as [|p ps IH]; intros s cur HR; cbn [write_pieces concat].
  - exists s. split; [reflexivity|exact HR].
  - destruct (write_chunks_ok c Hc (S (length p)) s cur p ltac:(lia) HR) as (s1 & H1 & HR1).
    rewrite H1. cbn [bind]. destruct (IH s1 _ HR1) as (s2 & H2 & HR2). rewrite H2. cbn [bind].
    exists s2. rewrite spec_split_app. cbn [fst snd]. split; [reflexivity|exact HR2].
Qed.

Theorem chunk_stream_spec c ps : cfg_ok c = true -> chunk_stream c ps = Ok (spec_chunks c (concat ps)).
Proof.
  intros Hc. unfold chunk_stream, spec_chunks.
  destruct (write_pieces_ok c Hc ps split_init [] (repS_init c Hc)) as (s & H & [_ Hb]).
  rewrite H. cbn [bind]. destruct (spec_split c [] (concat ps)) as [cs r]. cbn [fst snd] in *.
  unfold write_final_chunk. rewrite Hb. destruct r; reflexivity.
Qed.

(** ** Consequences for the specification *)
Lemma spec_split_concat c l cur : concat (fst (spec_split c cur l)) ++ snd (spec_split c cur l) = cur ++ l.
Proof.
  revert cur; induction l as [|b l IH]; intros cur; cbn [spec_split].
  - cbn. rewrite app_nil_r. reflexivity.
  - destruct (cut_here c (cur ++ [b])).
    + specialize (IH []). destruct (spec_split c [] l) as [cs r]. cbn [fst snd concat] in *.
      rewrite <- app_assoc, IH, <- app_assoc. reflexivity.
    + rewrite IH, <- app_assoc. reflexivity.
Qed.

Lemma spec_chunks_concat c l : concat (spec_chunks c l) = l.
Proof.
  unfold spec_chunks. pose proof (spec_split_concat c l []) as H. destruct (spec_split c [] l) as [cs r].
  cbn [fst snd app] in H. rewrite concat_app. rewrite <- H. f_equal.
  destruct r; cbn; [reflexivity|rewrite app_nil_r; reflexivity].
Qed.

(** Every chunk emitted satisfies the cut condition, and no proper non-empty prefix of it does. *)
Definition first_cut_chunk (c : cfg) (x : list N) : Prop :=
  cut_here c x = true /\ forall n, (1 <= n < length x)%nat -> cut_here c (firstn n x) = false.

Lemma spec_split_chunks c l cur :
  (forall n, (1 <= n <= length cur)%nat -> cut_here c (firstn n cur) = false) ->
  Forall (fun x => x <> [] /\ first_cut_chunk c x) (fst (spec_split c cur l)) /\
  (forall n, (1 <= n <= length (snd (spec_split c cur l)))%nat -> cut_here c (firstn n (snd (spec_split c cur l))) = false).
Proof.
  revert cur; induction l as [|b l IH]; intros cur Hcur; cbn [spec_split].
  - cbn [fst snd]. split; [constructor|exact Hcur].
  - destruct (cut_here c (cur ++ [b])) eqn:Hc.
    + destruct (IH []) as [H1 H2]; [cbn; intros; lia|]. destruct (spec_split c [] l) as [cs r].
      cbn [fst snd] in *. split; [|exact H2]. constructor; [|exact H1]. split; [destruct cur; discriminate|].
      split; [exact Hc|]. intros n Hn. rewrite app_length in Hn. cbn in Hn.
      rewrite firstn_app. replace (n - length cur)%nat with 0%nat by lia. rewrite firstn_O, app_nil_r. apply Hcur. lia.
    + apply IH. intros n Hn. rewrite app_length in Hn. cbn in Hn.
      destruct (Nat.eq_dec n (length cur + 1)) as [->|Hne].
      * rewrite firstn_all2; [exact Hc|rewrite app_length; cbn; lia].
      * rewrite firstn_app. replace (n - length cur)%nat with 0%nat by lia. rewrite firstn_O, app_nil_r. apply Hcur. lia.
Qed.
