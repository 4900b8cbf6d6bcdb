(** Seeking, part 3: what is at the places a seek goes to. *)
From Coq Require Import Permutation.
From Verif Require Import Base FeatureFlags ArchiveBase Bst Decoder DecoderSpec DecoderProofs DecoderProofs2 DecoderProofs3 DecoderProofs4 DecoderProofs5 Encoder EncoderProofs RoundTrip1 RoundTrip2 RoundTrip3 RoundTrip4 Seek SeekSpec SeekProofs1 SeekProofs2.
Local Open Scope N_scope.
Local Arguments fld : simpl never.
Local Arguments body : simpl never.

(** ** Entries *)
Definition is_dir (t : tree) : bool := match t with TDir _ _ => true | _ => false end.
Definition is_reg (t : tree) : bool := match t with TReg _ _ => true | _ => false end.

Lemma tree_entry env ev t bt rest ar f0 : arch ev t bt -> dec_tree (ev_ff ev) t -> ff_ok env (ev_ff ev) f0 -> (ar = true -> is_dir t = true) ->
  match t with TOther _ => next_ok rest | _ => True end -> len bt < UINT64_MAX - 16 ->
  exists off, parse_entry env ar f0 (bt ++ rest) = (ROk (entry_of t) off, ev_ff ev) /\ off <= len bt /\
    (forall m data, t = TReg m data -> off = len bt - len data /\ exists pre, len pre = off /\ bt = pre ++ data).
Proof.
  intros A DT Hff Har Hnx Hl.
  assert (W : forall m x e off, dec_file (ev_ff ev) m -> P env ar (ev_ff ev) (acc_of (ev_ff ev) m) x (len (ser_meta ev m)) = (ROk e off, ev_ff ev) ->
    parse_entry env ar f0 (ser_meta ev m ++ x) = (ROk e off, ev_ff ev)).
  { intros m x e off D HP. change (parse_entry env ar f0 (ser_meta ev m ++ x)) with (P env ar f0 pacc0 (ser_meta ev m ++ x) 0).
    rewrite (P_meta env (ev_ff ev) ev) by (reflexivity || assumption || apply D). exact HP. }
  inversion A as [m data|m s|m x y|m|m ents bl ls gb AE G]; subst; inversion DT; subst; rewrite <- ?app_assoc; rewrite ?len_app, ?len_le64 in Hl |- *.
  - assert (ar = false) by (destruct ar; [discriminate (Har eq_refl)|reflexivity]). subst ar.
    eexists. split; [|split].
    + apply W; [assumption|]. rewrite (P_done env (ev_ff ev) false m _ _ HDR (PPayload (len data))); [reflexivity|assumption|assumption|discriminate|].
      apply end_payload; [assumption|assumption|unfold HDR, UINT64_MAX in *; lia].
    + unfold HDR. lia.
    + intros m' data' E. injection E as <- <-. split; [unfold HDR; lia|]. exists (ser_meta ev m ++ le64 (HDR + len data) ++ le64 F_PAYLOAD).
      split; [rewrite !len_app, !len_le64; unfold HDR; lia|]. rewrite <- !app_assoc. reflexivity.
  - assert (ar = false) by (destruct ar; [discriminate (Har eq_refl)|reflexivity]). subst ar.
    eexists. split; [|split; [|discriminate]].
    + apply W; [assumption|]. rewrite (P_done env (ev_ff ev) false m _ _ (len (obj F_SYMLINK (s ++ [0]))) (PSymlink s)); [reflexivity|assumption|assumption|discriminate|]. apply end_symlink; assumption.
    + lia.
  - assert (ar = false) by (destruct ar; [discriminate (Har eq_refl)|reflexivity]). subst ar.
    eexists. split; [|split; [|discriminate]].
    + apply W; [assumption|]. rewrite (P_done env (ev_ff ev) false m _ _ (len (obj F_DEVICE (le64 x ++ le64 y))) (PDevice x y)); [reflexivity|assumption|assumption|discriminate|]. apply end_device; assumption.
    + lia.
  - assert (ar = false) by (destruct ar; [discriminate (Har eq_refl)|reflexivity]). subst ar.
    eexists. split; [|split; [|discriminate]].
    + apply W; [assumption|]. apply next_entry; [assumption|exact Hnx|auto|discriminate].
    + lia.
  - destruct (proj2 (arch_len ev) _ _ _ AE) as [Lb Ll]. pose proof (ser_meta_len ev m) as Lm.
    eexists. split; [|split; [|discriminate]].
    + apply W; [assumption|]. apply next_entry; [assumption| |auto|auto]. rewrite len_app in G. eapply ents_next; try eassumption; unfold UINT64_MAX in *; lia.
    + lia.
Qed.

Lemma entry_req_ff env ar f0 p f' x r f2 : parse_entry env ar f0 p = (RReq, f') -> parse_entry env ar f0 (p ++ x) = (r, f2) -> r <> RReq -> f' = f0 \/ f' = f2.
Proof.
  unfold parse_entry. set (n := S (length p)). set (m := S (length (p ++ x))).
  assert (Hn : (length p < n)%nat) by (unfold n; lia). assert (Hm : (length (p ++ x) < m)%nat) by (unfold m; lia). clearbody n m.
  destruct n as [|n]; [lia|]. destruct m as [|m]; [lia|]. cbn [parse_loop]. intros H1 H2 Hr.
  pose proof (parse_obj_inv env f0 pacc0 p) as I. pose proof (parse_obj_ext env f0 pacc0 p x) as X.
  destruct (parse_obj env f0 pacc0 p) as [w g] eqn:E. destruct w as [|e|a l|a c w]; cbn [obj_result fst] in *.
  - injection H1 as <-. left. exact I.
  - discriminate.
  - rewrite X in H2 by discriminate. destruct I as (_ & [(_ & _ & _ & _ & e & V & Pe & _) | (_ & C & _)]); [|cbn in C; congruence].
    apply parse_loop_ff in H1; [|rewrite Pe; discriminate]. apply parse_loop_ff in H2; [|rewrite Pe; discriminate]. right. congruence.
  - destruct I as (_ & _ & _ & C & _). cbn in C. congruence.
Qed.
Lemma ff_again env ff f0 : ff_ok env ff f0 -> ff_ok env ff ff.
Proof. intros (A & B & C). split; [|auto]. exact (validate_feature_flags_again _ _ _ _ A). Qed.

(** ** The entries of a directory and its items *)
Definition ent_at (ev : eenv) (ents : list (list N * tree)) (bl : list N) (it : gitem) (nm : list N) (t : tree) : Prop :=
  exists bt bl1 bl2 l2 ls2, bl = bl1 ++ obj F_FILENAME (nm ++ [0]) ++ bt ++ bl2 /\ arch ev t bt /\ arch_ents ev l2 bl2 ls2 /\ incl l2 ents /\
    it = mkGitem (len (obj F_FILENAME (nm ++ [0]) ++ bt ++ bl2)) (len (obj F_FILENAME (nm ++ [0]) ++ bt)) (ev_hash ev nm).
Lemma ents_items ev ents bl ls : arch_ents ev ents bl ls ->
  (forall it, In it ls -> exists nm t, In (nm, t) ents /\ ent_at ev ents bl it nm t) /\
  (forall nm t, In (nm, t) ents -> exists it, In it ls /\ ent_at ev ents bl it nm t).
Proof.
  induction 1 as [|n t bt l bl ls A1 A2 [I1 I2]]; [split; contradiction|].
  assert (Hh : ent_at ev ((n, t) :: l) (obj F_FILENAME (n ++ [0]) ++ bt ++ bl)
    (mkGitem (len (obj F_FILENAME (n ++ [0]) ++ bt ++ bl)) (len (obj F_FILENAME (n ++ [0]) ++ bt)) (ev_hash ev n)) n t).
  { exists bt, [], bl, l, ls. split; [reflexivity|]. split; [exact A1|]. split; [exact A2|]. split; [apply incl_tl, incl_refl|reflexivity]. }
  assert (Ht : forall it nm t', ent_at ev l bl it nm t' -> ent_at ev ((n, t) :: l) (obj F_FILENAME (n ++ [0]) ++ bt ++ bl) it nm t').
  { intros it nm t' (bt' & bl1 & bl2 & l2 & ls2 & E & A & B & C & D). subst bl.
    exists bt', (obj F_FILENAME (n ++ [0]) ++ bt ++ bl1), bl2, l2, ls2. split; [rewrite <- !app_assoc; reflexivity|].
    split; [exact A|]. split; [exact B|]. split; [apply incl_tl, C|exact D]. }
  split.
  - intros it [<- | H]; [exists n, t; split; [left; reflexivity|exact Hh]|]. destruct (I1 it H) as (nm & t' & J1 & J2). exists nm, t'. split; [right; exact J1|auto].
  - intros nm t' [E | H]; [injection E as <- <-; eexists; split; [left; reflexivity|exact Hh]|]. destruct (I2 nm t' H) as (it & J1 & J2). exists it. split; [right; exact J1|auto].
Qed.

(** ** Reading back a GOODBYE object *)
Lemma goodbye_items_ext l p x : l <= len p -> HDR + GOODBYE_TAIL <= l -> goodbye_items l (p ++ x) = goodbye_items l p.
Proof.
  intros H H2. unfold goodbye_items. apply map_ext_in. intros i Hi. apply in_seq in Hi. cbn in Hi.
  assert (L : HDR + GOODBYE_ITEM * N.of_nat i + 24 <= l).
  { destruct Hi as [_ Hi]. assert (J : N.of_nat i < (l - HDR - GOODBYE_TAIL) / GOODBYE_ITEM) by lia.
    assert (K := N.mul_div_le (l - HDR - GOODBYE_TAIL) GOODBYE_ITEM ltac:(discriminate)).
    set (q := (l - HDR - GOODBYE_TAIL) / GOODBYE_ITEM) in *. clearbody q. unfold HDR, GOODBYE_TAIL, GOODBYE_ITEM in *. lia. }
  unfold goodbye_item_at. cbv zeta. f_equal; apply fld_ext; lia.
Qed.

Lemma fld_app o a x : len a <= o -> fld o (a ++ x) = fld (o - len a) x.
Proof. intros H. unfold fld. rewrite dropN_app_ge by exact H. reflexivity. Qed.
Definition item64 (i : gitem) : Prop := gi_off i < two64 /\ gi_size i < two64 /\ gi_hash i < two64.
Lemma gitem_at pre i x : item64 i ->
  mkGitem (fld (len pre) (pre ++ ser_gitem i ++ x)) (fld (len pre + 8) (pre ++ ser_gitem i ++ x)) (fld (len pre + 16) (pre ++ ser_gitem i ++ x)) = i.
Proof.
  intros (A & B & C). rewrite (fld_app (len pre)), (fld_app (len pre + 8)), (fld_app (len pre + 16)) by lia. replace (len pre - len pre) with 0 by lia. replace (len pre + 8 - len pre) with 8 by lia.
  replace (len pre + 16 - len pre) with 16 by lia. unfold ser_gitem. rewrite <- !app_assoc.
  rewrite (fld_next 8), (fld_next 16), (fld_next (16 - 8)) by lia.
  change (8 - 8) with 0. change (16 - 8 - 8) with 0. rewrite !fld_0_le64 by assumption. destruct i; reflexivity.
Qed.
Lemma items_at tab : Forall item64 tab -> forall pre x k, len pre = HDR + GOODBYE_ITEM * N.of_nat k ->
  map (goodbye_item_at (pre ++ concat (map ser_gitem tab) ++ x)) (seq k (length tab)) = tab.
Proof.
  induction 1 as [|i tab Hi F IH]; intros pre x k Hk; [reflexivity|]. cbn [length seq map concat]. f_equal.
  - unfold goodbye_item_at. cbv zeta. rewrite <- Hk. rewrite <- !app_assoc. apply gitem_at. exact Hi.
  - rewrite <- !app_assoc. rewrite (app_assoc pre). apply IH. rewrite len_app, Hk. unfold ser_gitem. rewrite !len_app, !len_le64. unfold GOODBYE_ITEM. lia.
Qed.
Lemma goodbye_read o tab (ls : list gitem) x : Forall item64 tab -> len tab = len ls ->
  let gb := obj F_GOODBYE (concat (map ser_gitem tab) ++ le64 o ++ le64 (40 + 24 * len ls) ++ le64 F_GOODBYE_TAIL_MARKER) in
  len gb = 40 + 24 * len ls /\ goodbye_items (len gb) (gb ++ x) = tab.
Proof.
  intros F L gb. assert (Lg : len gb = 40 + 24 * len ls) by (unfold gb; rewrite len_obj, !len_app, !len_le64, len_gitems; lia).
  split; [exact Lg|]. unfold goodbye_items. rewrite Lg. unfold HDR, GOODBYE_TAIL, GOODBYE_ITEM.
  replace (40 + 24 * len ls - 16 - 24) with (len ls * 24) by lia. rewrite N.div_mul by discriminate. rewrite <- L.
  replace (N.to_nat (len tab)) with (length tab) by (unfold len; lia). unfold gb, obj. rewrite <- !app_assoc. 
  rewrite (app_assoc (le64 _) (le64 F_GOODBYE)). apply items_at; [exact F|]. rewrite len_app, !len_le64. reflexivity.
Qed.

(** The last 24 bytes of a directory. *)
Lemma tail_at o tab (ls : list gitem) x : len tab = len ls ->
  let gb := obj F_GOODBYE (concat (map ser_gitem tab) ++ le64 o ++ le64 (40 + 24 * len ls) ++ le64 F_GOODBYE_TAIL_MARKER) in
  dropN (len gb - 24) (gb ++ x) = le64 o ++ le64 (40 + 24 * len ls) ++ le64 F_GOODBYE_TAIL_MARKER ++ x.
Proof.
  intros L gb. assert (Lg : len gb = 40 + 24 * len ls) by (unfold gb; rewrite len_obj, !len_app, !len_le64, len_gitems; lia). rewrite Lg.
  unfold gb, obj. set (h := le64 (HDR + len (concat (map ser_gitem tab) ++ le64 o ++ le64 (40 + 24 * len ls) ++ le64 F_GOODBYE_TAIL_MARKER))) in *.
  replace ((h ++ le64 F_GOODBYE ++ concat (map ser_gitem tab) ++ le64 o ++ le64 (40 + 24 * len ls) ++ le64 F_GOODBYE_TAIL_MARKER) ++ x)
    with ((h ++ le64 F_GOODBYE ++ concat (map ser_gitem tab)) ++ le64 o ++ le64 (40 + 24 * len ls) ++ le64 F_GOODBYE_TAIL_MARKER ++ x) by (rewrite <- !app_assoc; reflexivity).
  apply dropN_app_exact. rewrite !len_app, len_gitems. unfold h. rewrite !len_le64. lia.
Qed.
