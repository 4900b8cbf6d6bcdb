(** Proofs about SyncCache.v, 2: the encoder, and cutting the data. *)
From Verif Require Import Base Chunker ChunkerSpec ChunkerProofs SyncCache SyncCacheSpec SyncCacheProofs1.
Local Open Scope N_scope.

Section Tree.
Context (digest : list N -> list N) (c : cfg) (quick : bool) (tree : list region) (Hc : cfg_ok c = true) (Htree : tree_ok tree).
Context (answered : list N -> Prop).

Notation total := (len (stream tree)).

(** ** The encoder *)
(** It has generated everything before [E], or it is at [E] and hasn't generated anything there yet. *)
Definition ready (e : enc) (E : N) : Prop :=
  (e = ENew /\ E = 0) \/
  exists i off got sk r, e = EAt i off got sk /\ nth_error tree i = Some r /\ 0 < got /\ off + got <= len (r_data r) /\
    (r_payload r = false -> off + got = len (r_data r)) /\ E = base tree i + off + got.
Definition fresh (e : enc) (E : N) : Prop :=
  exists i off r, e = EAt i off 0 false /\ nth_error tree i = Some r /\ off < len (r_data r) /\ E = base tree i + off.

Lemma region_pos i r : nth_error tree i = Some r -> 0 < len (r_data r).
Proof.
  intros H. destruct Htree as [_ Hf]. rewrite Forall_forall in Hf. specialize (Hf r (nth_error_In _ _ H)).
  destruct (r_data r); [contradiction|]. rewrite len_cons. lia.
Qed.

Lemma ready_le e E : ready e E -> E <= total.
Proof. intros [[_ ->]|(i & off & got & sk & r & _ & Hi & _ & Hle & _ & ->)]; [lia|]. pose proof (base_le tree i r Hi). lia. Qed.

Lemma enter_ok i e t : enter tree i = (e, t) -> match t with EData => fresh e (base tree i) | EFinished => e = EEnd /\ base tree i = total end.
Proof.
  unfold enter. destruct (nth_error tree i) as [r|] eqn:Hi; intros H; injection H as <- <-.
  - exists i, 0, r. pose proof (region_pos i r Hi). repeat split; try assumption. lia.
  - split; [reflexivity|]. apply base_last, Hi.
Qed.

Lemma encoder_step_ok e E e' t : ready e E -> encoder_step tree e = (e', t) ->
  match t with EData => fresh e' E | EFinished => e' = EEnd /\ E = total end.
Proof.
  intros [[-> ->]|(i & off & got & sk & r & -> & Hi & Hg & Hle & Hb & ->)] H.
  - cbn [encoder_step] in H. apply enter_ok in H. exact H.
  - cbn [encoder_step] in H. rewrite Hi in H. destruct (r_payload r) eqn:Hp; cbn [andb] in H.
    + destruct (N.ltb_spec (off + got) (len (r_data r))) as [Hlt|Hge].
      * injection H as <- <-. exists i, (off + got), r. repeat split; try assumption. lia.
      * apply enter_ok in H. rewrite (base_S tree i r Hi) in H. replace (base tree i + off + got) with (base tree i + len (r_data r)) by lia. exact H.
    + specialize (Hb eq_refl). apply enter_ok in H. rewrite (base_S tree i r Hi) in H.
      replace (base tree i + off + got) with (base tree i + len (r_data r)) by lia. exact H.
Qed.

Definition whereis (r : region) (off : N) : loc := mkLoc (r_key r) (r_table r) off UINT64_MAX.

Lemma whereis_here i r off : nth_error tree i = Some r -> here tree (base tree i + off) (whereis r off) r.
Proof. intros H. exists i. repeat split. exact H. Qed.

Lemma location_ok i off got sk r : nth_error tree i = Some r -> encoder_location tree (EAt i off got sk) = Some (whereis r off).
Proof. intros H. unfold encoder_location. rewrite H. reflexivity. Qed.

(** Data is generated. *)
Lemma data_ok i off sug want r : nth_error tree i = Some r -> off < len (r_data r) -> sug <> Some 0 ->
  exists k, encoder_data quick tree (EAt i off 0 false) sug want = (EAt i off k (r_payload r && negb want && quick), Ok (sub tree (base tree i + off) k)) /\
    0 < k /\ off + k <= len (r_data r) /\ (r_payload r = false -> off + k = len (r_data r)) /\ (r_payload r = true -> forall n, sug = Some n -> k <= n).
Proof.
  intros Hi Hoff Hs. unfold encoder_data. rewrite Hi. cbn [andb N.ltb]. change (0 <? 0) with false. cbv iota. destruct (r_payload r) eqn:Hp.
  - set (rest := len (r_data r) - off). set (k0 := if negb want && quick then rest else N.min 65536 rest).
    assert (Hk0 : 0 < k0 /\ off + k0 <= len (r_data r)) by (unfold k0, rest; destruct (negb want && quick); lia).
    set (k := match sug with Some n => N.min n k0 | None => k0 end).
    assert (Hk : 0 < k /\ k <= k0 /\ forall n, sug = Some n -> k <= n).
    { unfold k. destruct sug as [n|]; [|repeat split; [lia|lia|discriminate]]. assert (n <> 0) by congruence.
      repeat split; [lia|lia|]. intros m E. injection E as <-. lia. }
    clearbody k k0. exists k. rewrite (sub_region tree i r off k Hi) by lia. cbn [andb]. split; [reflexivity|]. split; [lia|]. split; [lia|]. split; [discriminate|]. intros _. apply Hk.
  - exists (len (r_data r) - off). rewrite (sub_region tree i r off _ Hi) by lia. rewrite takeN_all by (rewrite len_dropN; lia).
    cbn [andb]. split; [reflexivity|]. split; [lia|]. split; [lia|]. split; [intros _; lia|]. discriminate.
Qed.

(** Data that was generated is given again. *)
Lemma data_again i off got r : nth_error tree i = Some r -> 0 < got -> off + got <= len (r_data r) ->
  encoder_data quick tree (EAt i off got false) None true = (EAt i off got false, Ok (sub tree (base tree i + off) got)).
Proof.
  intros Hi Hg Hle. unfold encoder_data. rewrite Hi. cbn [andb]. destruct (N.ltb_spec 0 got); [|lia].
  rewrite (sub_region tree i r off got Hi) by lia. reflexivity.
Qed.

Lemma find_region_ok i r rs j : NoDup (map r_key rs) -> nth_error rs i = Some r -> find_region (r_key r) j rs = Some (j + i)%nat.
Proof.
  clear Htree Hc. revert i j. induction rs as [|x rs IH]; intros [|i] j Hd Hi; cbn [nth_error] in Hi; try discriminate.
  - injection Hi as ->. cbn [find_region]. rewrite N.eqb_refl. f_equal. lia.
  - cbn [map] in Hd. inversion Hd as [|a b Hn Hd']; subst. cbn [find_region]. destruct (N.eqb_spec (r_key x) (r_key r)) as [E|E].
    + exfalso. apply Hn. rewrite E. apply in_map. eapply nth_error_In; eassumption.
    + rewrite (IH i (S j) Hd' Hi). f_equal. lia.
Qed.

Lemma seek_ok p l r : here tree p l r -> l_off l < len (r_data r) -> exists e, encoder_seek tree l = Ok e /\ fresh e p.
Proof.
  intros (i & Hi & Hk & ->) Hoff. unfold encoder_seek. rewrite <- Hk. destruct Htree as [Hd _].
  rewrite (find_region_ok i r tree 0 Hd Hi). change (0 + i)%nat with i. rewrite Hi. destruct (N.ltb_spec (l_off l) (len (r_data r))); [|lia].
  exists (EAt i (l_off l) 0 false). split; [reflexivity|]. exists i, (l_off l), r. repeat split; assumption.
Qed.

(** ** What was written so far *)
Definition put_ok (x : origin * list N) : Prop := fst x <> [] /\ exists p, describes tree true p (fst x) /\ digest (sub tree p (covers (fst x))) = snd x.
Record core (ps : list (list N)) (s : sync) : Prop := {
  k_index : s_index s = listing digest ps;
  k_prefix : concat ps = sub tree 0 (len (concat ps));
  k_le : len (concat ps) <= total;
  k_nonempty : Forall (fun p => p <> []) ps;
  k_puts : Forall put_ok (s_puts s);
  k_known : Forall (fun x => In (fst x) (map digest (s_stored s)) \/ answered (fst x)) (s_index s);
  k_ck : exists cur, Rep c (s_ck s) cur }.

(** The buffer has what is from [q] up to [E]. *)
Record bufat (cached : bool) (q : N) (s : sync) (E : N) : Prop := {
  b_buf : s_buf s = sub tree q (len (s_buf s));
  b_end : q + len (s_buf s) = E;
  b_le : E <= total;
  b_orig : cached = true -> describes tree true q (s_borig s) /\ origin_bytes (s_borig s) = len (s_buf s) }.

Lemma core_more ps s piece (stored : bool) s' : core ps s -> piece = sub tree (len (concat ps)) (len piece) -> piece <> [] -> len (concat ps) + len piece <= total ->
  s_index s' = s_index s ++ [(digest piece, len piece)] -> s_stored s' = (if stored then s_stored s ++ [piece] else s_stored s) ->
  (stored = true \/ answered (digest piece)) -> Forall put_ok (s_puts s') -> (exists cur, Rep c (s_ck s') cur) -> core (ps ++ [piece]) s'.
Proof.
  intros [A B C D F G H] Hp Hne Hle Hi Hst Hor Hput Hck. constructor.
  - rewrite Hi, A. unfold listing. rewrite map_app. reflexivity.
  - rewrite concat_app. cbn [concat]. rewrite app_nil_r, len_app. rewrite <- sub_app by lia. rewrite <- B. rewrite N.add_0_l, <- Hp. reflexivity.
  - rewrite concat_app. cbn [concat]. rewrite app_nil_r, len_app. exact Hle.
  - apply Forall_app. split; [exact D|]. constructor; [exact Hne|constructor].
  - exact Hput.
  - rewrite Hi. apply Forall_app. split.
    + eapply Forall_impl; [|exact G]. intros x [Hx|Hx]; [left|right; exact Hx]. rewrite Hst. destruct stored; [|exact Hx]. rewrite map_app. apply in_or_app. left. exact Hx.
    + constructor; [|constructor]. cbn [fst]. destruct Hor as [->|Ha]; [left|right; exact Ha]. rewrite Hst, map_app. apply in_or_app. right. left. reflexivity.
  - exact Hck.
Qed.

Lemma core_same ps s s' : core ps s -> s_index s' = s_index s -> s_stored s' = s_stored s -> s_puts s' = s_puts s -> s_ck s' = s_ck s -> core ps s'.
Proof. intros [A B C D F G H] E1 E2 E3 E4. constructor; try assumption; rewrite ?E1, ?E2, ?E3, ?E4; assumption. Qed.

Lemma concat_snoc (ps : list (list N)) p : concat (ps ++ [p]) = concat ps ++ p.
Proof. rewrite concat_app. cbn [concat]. rewrite app_nil_r. reflexivity. Qed.

(** ** Cutting *)
Definition cut_state (cached : bool) (s s' : sync) (ps ps' : list (list N)) : Prop :=
  s_enc s' = s_enc s /\ s_item s' = s_item s /\
  ((ps' = ps /\ s_state s' = s_state s) \/ (len (concat ps) < len (concat ps') /\ s_state s' = if cached then CCheck else s_state s)).

Lemma write_loop_ok cached : forall n s ps p E, (length p < n)%nat -> core ps s -> s_buf s = sub tree (len (concat ps)) (len (s_buf s)) ->
  len (concat ps) + len (s_buf s) = E -> p = sub tree E (len p) -> E + len p <= total ->
  (cached = true -> describes tree true (len (concat ps)) (s_borig s) /\ origin_bytes (s_borig s) = len (s_buf s) + len p) ->
  exists s' ps', write_loop digest c n cached s p = (s', Ok tt) /\ core ps' s' /\ bufat cached (len (concat ps')) s' (E + len p) /\ cut_state cached s s' ps ps'.
Proof.
  induction n as [|n IH]; intros s ps p E Hn Hcore Hbuf HE Hp Hle Hor; [lia|]. cbn [write_loop].
  destruct (N.eqb_spec (len p) 0) as [E0|E0].
  { exists s, ps. split; [reflexivity|]. split; [exact Hcore|]. split.
    - constructor; [exact Hbuf|lia|lia|]. intros Hch. destruct (Hor Hch) as [A B]. split; [exact A|lia].
    - split; [reflexivity|]. split; [reflexivity|]. left. split; reflexivity. }
  destruct (k_ck _ _ Hcore) as (cur & HR). pose proof (scan_ok c Hc (s_ck s) cur p HR) as HS. unfold scan_result in HS.
  destruct (first_cut c cur p) as [k|] eqn:Hfc.
  - destruct HS as (w & Hw & ->). rewrite N.add_0_l. destruct (first_cut_bound c cur p k Hfc) as [Hk1 Hk2].
    set (chunk := s_buf s ++ takeN k p).
    assert (Htk : takeN k p = sub tree E k).
    { rewrite Hp. rewrite <- (sub_take tree E k (len p - k)) by lia. f_equal. f_equal. lia. }
    assert (Hdk : dropN k p = sub tree (E + k) (len p - k)).
    { rewrite Hp at 1. rewrite <- (sub_drop tree E k (len p - k)) by lia. f_equal. f_equal. lia. }
    assert (Hlc : len chunk = len (s_buf s) + k) by (unfold chunk; rewrite len_app, len_takeN; lia).
    assert (Hchunk : chunk = sub tree (len (concat ps)) (len chunk)).
    { rewrite Hlc. rewrite <- sub_app by lia. rewrite <- Hbuf. rewrite HE, <- Htk. reflexivity. }
    assert (Hld : len (dropN k p) = len p - k) by (rewrite len_dropN; reflexivity).
    assert (Htaken : exists o rest, (if cached then if len chunk =? origin_bytes (s_borig s) then Ok (s_borig s, [])
              else let! a := origin_extract (s_borig s) (len chunk) in let! b := origin_advance (s_borig s) (len chunk) in Ok (a, b)
            else Ok ([], [])) = Ok (o, rest) /\
            (cached = true -> o <> [] /\ describes tree true (len (concat ps)) o /\ origin_bytes o = len chunk /\ describes tree true (len (concat ps) + len chunk) rest /\
                              origin_bytes rest = len p - k)).
    { destruct cached; [|exists [], []; split; [reflexivity|discriminate]]. destruct (Hor eq_refl) as [Hd Hb].
      destruct (N.eqb_spec (len chunk) (origin_bytes (s_borig s))) as [Eq|Ne].
      - exists (s_borig s), []. split; [reflexivity|]. intros _. split; [intros Hnil; rewrite Hnil in Hb; change (origin_bytes []) with 0 in Hb; lia|].
        split; [exact Hd|]. split; [lia|]. split; [constructor|]. change (origin_bytes []) with 0. lia.
      - destruct (describes_extract tree Htree _ _ (len chunk) Hd) as (o & Eo & Do & Bo); [lia|lia|].
        destruct (describes_advance tree _ _ _ (len chunk) Hd) as (rest & Er & Dr & Br); [lia|].
        exists o, rest. rewrite Eo. cbn [bind]. rewrite Er. cbn [bind]. split; [reflexivity|]. intros _.
        split; [intros Hnil; subst o; change (origin_bytes []) with 0 in Bo; lia|]. split; [exact Do|]. split; [exact Bo|]. split; [exact Dr|]. lia. }
    destruct Htaken as (o & rest & -> & Hoo).
    set (s1 := set_buffer _ _ [] rest).
    assert (Hcore1 : core (ps ++ [chunk]) s1).
    { apply (core_more ps s chunk true s1 Hcore Hchunk).
      - intros Hnil. rewrite Hnil in Hlc. change (@len N []) with 0 in Hlc. lia.
      - lia.
      - reflexivity.
      - reflexivity.
      - left. reflexivity.
      - unfold s1, write_one_chunk. cbn [set_buffer s_puts]. destruct cached; [|exact (k_puts _ _ Hcore)]. apply Forall_app. split; [exact (k_puts _ _ Hcore)|].
        constructor; [|constructor]. destruct (Hoo eq_refl) as (A & B & D & _). split; [exact A|]. exists (len (concat ps)). split; [exact B|]. cbn [fst snd].
        rewrite covers_bytes, D, <- Hchunk. reflexivity.
      - exists []. apply rep_init; [exact Hc|exact Hw]. }
    assert (Hpos : len (concat (ps ++ [chunk])) = len (concat ps) + len chunk) by (rewrite concat_snoc, len_app; reflexivity).
    destruct (IH s1 (ps ++ [chunk]) (dropN k p) (E + k)) as (s' & ps' & Er & Hc' & Hb' & He' & Hi' & Hst').
    + apply Nat.lt_le_trans with (length p); [|lia]. unfold dropN. rewrite skipn_length. unfold len in Hk2, E0. lia.
    + exact Hcore1.
    + rewrite Hpos. unfold s1. cbn [set_buffer s_buf]. reflexivity.
    + rewrite Hpos. unfold s1. cbn [set_buffer s_buf]. change (@len N []) with 0. lia.
    + rewrite Hld. exact Hdk.
    + rewrite Hld. lia.
    + intros Hch. rewrite Hpos. unfold s1. cbn [set_buffer s_buf s_borig]. change (@len N []) with 0. destruct (Hoo Hch) as (_ & _ & _ & A & B). split; [exact A|]. rewrite Hld. lia.
    + exists s', ps'. split; [exact Er|]. split; [exact Hc'|]. split.
      { rewrite Hld in Hb'. replace (E + k + (len p - k)) with (E + len p) in Hb' by lia. exact Hb'. }
      split; [exact He'|]. split; [exact Hi'|]. right. unfold s1 in Hst'. cbn [set_buffer write_one_chunk s_state] in Hst'.
      destruct Hst' as [[-> Hst']|[Hlt Hst']].
      * split; [lia|]. rewrite Hst'. destruct cached; reflexivity.
      * split; [lia|]. rewrite Hst'. destruct cached; reflexivity.
  - destruct HS as (ck' & -> & HR'). eexists _, ps. split; [reflexivity|]. split.
    { destruct Hcore as [A B C D F G H]. constructor; cbn [set_buffer s_index s_puts s_stored s_ck]; try assumption. exists (cur ++ p). exact HR'. }
    assert (Hlb : len (s_buf s ++ p) = len (s_buf s) + len p) by apply len_app.
    split.
    + constructor; cbn [set_buffer s_buf s_borig].
      * rewrite Hlb. rewrite <- sub_app by lia. rewrite <- Hbuf. rewrite HE, <- Hp. reflexivity.
      * lia.
      * exact Hle.
      * intros Hch. rewrite Hlb. apply Hor, Hch.
    + split; [reflexivity|]. split; [reflexivity|]. left. split; reflexivity.
Qed.

(** The data at [E] is written. *)
Lemma write_chunks_ok cached s ps n E l r : core ps s -> bufat cached (len (concat ps)) s E -> 0 < n -> here tree E l r -> l_off l + n <= len (r_data r) ->
  l_table l = r_table r -> l_size l = n ->
  exists s' ps', write_chunks digest c cached s (sub tree E n) l = (s', Ok tt) /\ core ps' s' /\ bufat cached (len (concat ps')) s' (E + n) /\ cut_state cached s s' ps ps'.
Proof.
  intros Hcore [B1 B2 B3 B4] Hn Hh Hle Ht Hs. pose proof (here_le tree E l r n Hh Hle) as Htot.
  assert (Hl : len (sub tree E n) = n) by (apply len_sub; exact Htot).
  unfold write_chunks. set (s0 := if cached then _ else s).
  assert (H0 : s_enc s0 = s_enc s /\ s_item s0 = s_item s /\ s_state s0 = s_state s /\ s_buf s0 = s_buf s /\ core ps s0).
  { unfold s0. destruct cached; [|repeat split; try exact Hcore; apply Hcore]. repeat split; try reflexivity. apply Hcore. all: apply Hcore. }
  destruct H0 as (He & Hi & Hst & Hb & Hcore0).
  destruct (write_loop_ok cached (S (length (sub tree E n))) s0 ps (sub tree E n) E) as (s' & ps' & Er & Hc' & Hb' & He' & Hi' & Hst').
  - lia.
  - exact Hcore0.
  - rewrite Hb. exact B1.
  - rewrite Hb. exact B2.
  - rewrite Hl. reflexivity.
  - rewrite Hl. exact Htot.
  - intros Hch. unfold s0. rewrite Hch. cbn [set_buffer s_borig s_buf]. destruct (B4 Hch) as [Hd Hbb]. rewrite origin_put_bytes, Hbb, Hl, Hs. split; [|reflexivity].
    apply (describes_put tree Htree _ _ l r); [exact Hd|rewrite Hbb, B2; exact Hh|exact Ht|lia|lia].
  - exists s', ps'. split; [exact Er|]. split; [exact Hc'|]. split; [rewrite Hl in Hb'; exact Hb'|]. split; [congruence|]. split; [congruence|]. rewrite <- Hst. exact Hst'.
Qed.
End Tree.
