From Verif Require Import Base Locator ParseSize Number Properties_Locator Properties_ParseSize NumberProofs Location LocationSpec LocationProofs1.
Local Open Scope N_scope.

Lemma kind_iff d : designator_valid d = true <-> kind d.
Proof. unfold designator_valid, kind, DES_ENTRY, DES_PAYLOAD, DES_FILENAME, DES_GOODBYE, DES_VOID. cbn [existsb]. rewrite !orb_true_iff, !N.eqb_eq. intuition discriminate. Qed.

Lemma has_bit w k : has w (2 ^ k) = N.testbit w k.
Proof.
  unfold has. destruct (N.testbit w k) eqn:E; [apply negb_true_iff, N.eqb_neq|apply negb_false_iff, N.eqb_eq].
  - intros Z. pose proof (N.land_spec w (2 ^ k) k) as L. rewrite Z, E, N.pow2_bits_true in L. rewrite N.bits_0 in L. discriminate.
  - apply N.bits_inj. intros j. rewrite N.land_spec, N.bits_0. destruct (N.eqb_spec k j) as [<-|D]; [rewrite E; reflexivity|]. rewrite N.pow2_bits_false by exact D. apply andb_false_r.
Qed.
Lemma asks_size_has w : asks_size w = has w WITH_SIZE. Proof. symmetry. apply (has_bit w 0). Qed.
Lemma asks_stamp_has w : asks_stamp w = has w WITH_MTIME. Proof. symmetry. apply (has_bit w 1). Qed.
Lemma asks_features_has w : asks_features w = has w WITH_FEATURE_FLAGS. Proof. symmetry. apply (has_bit w 2). Qed.
Lemma asks_archive_offset_has w : asks_archive_offset w = has w WITH_ARCHIVE_OFFSET. Proof. symmetry. apply (has_bit w 3). Qed.
Lemma asks_table_has w : asks_table w = has w WITH_NAME_TABLE. Proof. symmetry. apply (has_bit w 4). Qed.
Ltac to_has := rewrite ?asks_size_has, ?asks_stamp_has, ?asks_features_has, ?asks_archive_offset_has, ?asks_table_has.

Lemma suffix_text {A} c u (b : bool) t (none : A) parse : ~ In c u ->
  suffix c (u ++ (if b then c :: t else [])) none parse = if b then (let! a := parse t in Ok (a, u)) else Ok (none, u).
Proof.
  intros H. unfold suffix. destruct b; [rewrite cut_here by exact H; reflexivity|]. rewrite app_nil_r, cut_none by exact H. reflexivity.
Qed.

Lemma suffix_inv {A} c u (none : A) parse (P : A -> Prop) :
  P none -> (forall q, (exists a, parse q = Ok a /\ P a) \/ exists e, parse q = Err e) ->
  (exists a u', suffix c u none parse = Ok (a, u') /\ P a) \/ exists e, suffix c u none parse = Err e.
Proof.
  intros Hn Hp. unfold suffix. destruct (cut c u) as [[u' q]|]; [|left; eauto]. destruct (Hp q) as [(a & E & Ha)|(e & E)]; rewrite E; cbn [bind]; [left|right]; eauto.
Qed.

Lemma unsigned_of_lt g : unsigned_of g < two32.
Proof. unfold unsigned_of. pose proof (Z.mod_pos_bound g 4294967296 ltac:(lia)). unfold two32. lia. Qed.
Lemma int_of_unsigned g : (-2147483648 <= g < 2147483648)%Z -> int_of (unsigned_of g) = g.
Proof.
  intros H. unfold int_of, unsigned_of. pose proof (Z.mod_pos_bound g 4294967296 ltac:(lia)).
  destruct (Z_lt_ge_dec g 0).
  - assert ((g mod 4294967296 = g + 4294967296)%Z) as E by (symmetry; apply Z.mod_unique with (q := (-1)%Z); lia).
    rewrite E. destruct (N.ltb_spec (Z.to_N (g + 4294967296)) 2147483648); lia.
  - rewrite Z.mod_small by lia. destruct (N.ltb_spec (Z.to_N g) 2147483648); lia.
Qed.
Lemma int_of_range u : u < two32 -> (-2147483648 <= int_of u < 2147483648)%Z.
Proof. unfold two32, int_of. intros H. destruct (N.ltb_spec u 2147483648); lia. Qed.

(** The parts of the text. *)
Definition t_stamp (l : loc) : list N :=
  dec (inode l) ++ 46 :: dec (mtime l) ++ (if generation_valid l then 46 :: dec (unsigned_of (generation l)) else []).

Lemma stamp_text l : typed l -> mtime l <> UINT64_MAX ->
  parse_stamp (t_stamp l) = Ok (inode l, mtime l, (if generation_valid l then generation l else 0%Z), generation_valid l).
Proof.
  intros T Hm. unfold parse_stamp, t_stamp. rewrite cut_here by (apply dec_not_in; reflexivity). rewrite safe_atou64_dec by apply (t_inode _ T). cbn [bind].
  apply N.eqb_neq in Hm. destruct (generation_valid l).
  - rewrite cut_here by (apply dec_not_in; reflexivity). rewrite safe_atou_dec by apply unsigned_of_lt. cbn [bind]. rewrite safe_atou64_dec by apply (t_mtime _ T). cbn [bind].
    rewrite Hm, int_of_unsigned by apply (t_generation _ T). reflexivity.
  - rewrite app_nil_r. rewrite cut_none by (apply dec_not_in; reflexivity). cbn [bind]. rewrite safe_atou64_dec by apply (t_mtime _ T). cbn [bind]. rewrite Hm. reflexivity.
Qed.

Lemma not_in_app (c : N) a b : ~ In c a -> ~ In c b -> ~ In c (a ++ b).
Proof. intros H1 H2. rewrite in_app_iff. tauto. Qed.
Lemma not_in_cons (c : N) d b : d <> c -> ~ In c b -> ~ In c (d :: b).
Proof. intros H1 H2 [E|E]; auto. Qed.
Lemma not_in_if (c : N) (b : bool) x : ~ In c x -> ~ In c (if b then x else []).
Proof. destruct b; auto. Qed.
Ltac ni := repeat lazymatch goal with
  | |- ~ In _ (_ ++ _) => apply not_in_app
  | |- ~ In _ (_ :: _) => apply not_in_cons; [congruence|]
  | |- ~ In _ (if _ then _ else _) => apply not_in_if
  | |- ~ In _ (dec _) => apply dec_not_in; first [reflexivity|assumption]
  | |- ~ In _ (hex _) => apply hex_not_in; first [reflexivity|assumption]
  end.

Lemma stamp_not_in c l : digit c = false -> c <> 46 -> ~ In c (t_stamp l).
Proof.
  intros H H2. unfold t_stamp. ni.
Qed.
Lemma name_table_not_in c t : digit_in 16 c = false -> c <> 79 -> c <> 72 -> c <> 83 -> c <> 88 -> ~ In c (name_table_format t).
Proof. intros H ? ? ? ? X. apply name_table_chars in X. rewrite H in X. intuition congruence. Qed.

Ltac step_with H := match type of H with ?L = ?R =>
  match goal with |- bind ?X ?K = ?Z => change (bind L K = Z); rewrite H end end; cbn [bind].

(** Text written can be read, and says the same. *)
Lemma location_round_trip l w : proper l -> typed l -> location_parse (location_format l w) = Ok (kept w l).
Proof.
  intros P T.
  set (tb := match name_table l with [] => false | _ => has w WITH_NAME_TABLE end).
  set (stamp := has w WITH_MTIME && negb (mtime l =? UINT64_MAX)).
  set (szb := has w WITH_SIZE && negb (size l =? UINT64_MAX)).
  set (ffb := has w WITH_FEATURE_FLAGS && negb (feature_flags l =? UINT64_MAX)).
  set (aob := has w WITH_ARCHIVE_OFFSET && negb (archive_offset l =? UINT64_MAX)).
  set (u1 := dec (offset l)).
  set (u2 := u1 ++ (if szb then 58 :: dec (size l) else [])).
  set (u3 := u2 ++ (if stamp then 64 :: t_stamp l else [])).
  set (u4 := u3 ++ (if ffb then 37 :: hex (feature_flags l) else [])).
  set (u5 := u4 ++ (if aob then 35 :: dec (archive_offset l) else [])).
  set (u6 := u5 ++ (if tb then 36 :: name_table_format (name_table l) else [])).
  assert (E : location_format l w = strempty (path l) ++ 43 :: designator l :: u6).
  { unfold location_format, u6, u5, u4, u3, u2, u1, t_stamp, tb. fold stamp szb ffb aob. rewrite !app_assoc_reverse. do 7 f_equal.
    destruct (name_table l); [reflexivity|]. reflexivity. }
  pose proof (p_kind _ P) as K.
  assert (Kc : ~ In 43 (designator l :: u6)).
  { apply not_in_cons; [unfold kind in K; intuition congruence|]. unfold u6, u5, u4, u3, u2, u1. ni; [apply stamp_not_in; [reflexivity|discriminate]|].
    apply name_table_not_in; try discriminate. reflexivity. }
  rewrite E. unfold location_parse. rewrite rcut_here by exact Kc.
  assert (Hslash : negb (len (strempty (path l)) =? 0) && (at_ (strempty (path l) ++ 43 :: designator l :: u6) 0 =? 47) = false).
  { destruct (path l) as [p|] eqn:Ep; [|reflexivity]. destruct (p_path _ P p Ep) as [Hn Hs]. cbn [strempty]. destruct p as [|c p]; [congruence|].
    change (at_ ((c :: p) ++ ?x) 0) with c. apply andb_false_iff. right. apply N.eqb_neq. intros ->. apply (Hs p). reflexivity. }
  rewrite Hslash. apply kind_iff in K. rewrite K. cbn [negb].
  unfold u6. rewrite suffix_text.
  2:{ unfold u5, u4, u3, u2, u1. ni. apply stamp_not_in; [reflexivity|discriminate]. }
  assert (Ht : (if tb then let! nt := (let! (nt, _) := name_table_parse (name_table_format (name_table l)) in Ok nt) in Ok (nt, u5) else Ok ([], u5)) = Ok (name_table (kept w l), u5)).
  { unfold tb, kept. to_has. cbn [name_table]. destruct (name_table l) as [|t ts] eqn:Et; [destruct (has w WITH_NAME_TABLE); reflexivity|]. destruct (has w WITH_NAME_TABLE); [|reflexivity].
    rewrite name_table_round_trip; [reflexivity|discriminate|]. rewrite <- Et. apply (t_table _ T). }
  step_with Ht. unfold u5. rewrite suffix_text.
  2:{ unfold u4, u3, u2, u1. ni. apply stamp_not_in; [reflexivity|discriminate]. }
  assert (Ha : (if aob then let! a := not_max (safe_atou64 (dec (archive_offset l))) in Ok (a, u4) else Ok (UINT64_MAX, u4)) = Ok (archive_offset (kept w l), u4)).
  { unfold aob, kept. to_has. cbn [archive_offset]. destruct (has w WITH_ARCHIVE_OFFSET); [|reflexivity]. destruct (N.eqb_spec (archive_offset l) UINT64_MAX) as [->|Hx]; [reflexivity|].
    cbn [andb negb]. rewrite safe_atou64_dec by apply (t_archive _ T). unfold not_max. cbn [bind]. apply N.eqb_neq in Hx. rewrite Hx. reflexivity. }
  step_with Ha. unfold u4. rewrite suffix_text.
  2:{ unfold u3, u2, u1. ni. apply stamp_not_in; [reflexivity|discriminate]. }
  assert (Hf : (if ffb then let! a := not_max (safe_atox64 (hex (feature_flags l))) in Ok (a, u3) else Ok (UINT64_MAX, u3)) = Ok (feature_flags (kept w l), u3)).
  { unfold ffb, kept. to_has. cbn [feature_flags]. destruct (has w WITH_FEATURE_FLAGS); [|reflexivity]. destruct (N.eqb_spec (feature_flags l) UINT64_MAX) as [->|Hx]; [reflexivity|].
    cbn [andb negb]. rewrite safe_atox64_hex by apply (t_flags _ T). unfold not_max. cbn [bind]. apply N.eqb_neq in Hx. rewrite Hx. reflexivity. }
  step_with Hf. unfold u3. rewrite suffix_text.
  2:{ unfold u2, u1. ni. }
  assert (Hst : (if stamp then let! a := parse_stamp (t_stamp l) in Ok (a, u2) else Ok ((0, UINT64_MAX, 0%Z, false), u2)) =
                Ok ((inode (kept w l), mtime (kept w l), generation (kept w l), generation_valid (kept w l)), u2)).
  { unfold kept. to_has. cbn [inode mtime generation generation_valid]. fold stamp. destruct stamp eqn:Es; [|reflexivity]. rewrite stamp_text; [reflexivity|exact T|].
    unfold stamp in Es. apply andb_true_iff in Es. destruct Es as [_ Es]. intros X. rewrite X in Es. discriminate. }
  step_with Hst. unfold u2. rewrite suffix_text.
  2:{ unfold u1. ni. }
  assert (Hsz : (if szb then let! a := (let! s := safe_atou64 (dec (size l)) in if (s =? 0) || (s =? UINT64_MAX) then Err EINVAL else Ok s) in Ok (a, u1) else Ok (UINT64_MAX, u1)) =
                Ok (size (kept w l), u1)).
  { unfold szb, kept. to_has. cbn [size]. destruct (has w WITH_SIZE); [|reflexivity]. destruct (N.eqb_spec (size l) UINT64_MAX) as [->|Hx]; [reflexivity|].
    cbn [andb negb]. rewrite safe_atou64_dec by apply (t_size _ T). cbn [bind]. destruct (p_size _ P) as [H0 _].
    destruct (N.eqb_spec (size l) 0); [congruence|]. apply N.eqb_neq in Hx. rewrite Hx. reflexivity. }
  step_with Hsz. unfold u1. rewrite safe_atou64_dec by apply (t_offset _ T). unfold not_max. cbn [bind].
  pose proof (p_offset _ P) as Ho. destruct (N.eqb_spec (offset l) UINT64_MAX); [lia|]. cbn [bind].
  assert (Hov : negb (size (kept w l) =? UINT64_MAX) && ((offset l + size (kept w l)) mod two64 <? offset l) = false).
  { unfold kept. to_has. cbn [size]. destruct (has w WITH_SIZE); [|reflexivity]. destruct (p_size _ P) as [_ [Hm|Hm]].
    - rewrite Hm. reflexivity.
    - apply andb_false_iff. right. apply N.ltb_ge. rewrite N.mod_small; [lia|]. unfold UINT64_MAX, two64 in *. lia. }
  rewrite Hov.
  assert (Hp : nonempty (Some (strempty (path l))) = path l).
  { destruct (path l) as [p|] eqn:Ep; [|reflexivity]. destruct (p_path _ P p Ep) as [Hn _]. destruct p; [congruence|reflexivity]. }
  rewrite Hp. unfold DES_VOID. destruct (N.eqb_spec (designator l) 118) as [Hv|Hv].
  - destruct (p_void _ P Hv) as [V1 V2]. rewrite V1. cbn [isempty negb andb]. unfold kept. cbn [offset designator path size]. cbn. rewrite V1, V2. reflexivity.
  - cbn [andb]. reflexivity.
Qed.

Lemma kept_agree l w : agree w l (kept w l).
Proof.
  unfold agree, kept. cbn [designator path offset size mtime inode generation_valid generation feature_flags name_table].
  split; [reflexivity|]. split; [reflexivity|]. split; [reflexivity|]. split; [intros ->; reflexivity|]. split.
  - intros ->. cbn [andb]. destruct (N.eqb_spec (mtime l) UINT64_MAX) as [E|E]; cbn [negb andb]; [split; [exact E|congruence]|].
    split; [reflexivity|]. intros _. split; [reflexivity|]. split; [reflexivity|]. intros ->. reflexivity.
  - split; intros ->; reflexivity.
Qed.

(** What the comparison function decides. *)
Lemma items_eqb_eq a : forall b, items_eqb a b = true <-> a = b.
Proof.
  induction a as [|x a IH]; intros [|y b]; cbn [items_eqb]; try (split; congruence).
  rewrite andb_true_iff, IH. unfold item_eqb. rewrite !andb_true_iff, !N.eqb_eq. destruct x as [xh xs xe], y as [yh ys ye]; cbn [i_hash i_start i_end]. split.
  - intros [[[-> ->] ->] ->]. reflexivity.
  - intros E. injection E as -> -> -> ->. auto.
Qed.
Lemma name_table_equal_iff a : forall b, name_table_equal a b = true <-> a = b.
Proof.
  induction a as [|[eo xs] a IH]; intros [|[eo' ys] b]; cbn [name_table_equal]; try (split; congruence).
  rewrite !andb_true_iff, IH, items_eqb_eq, !N.eqb_eq. split.
  - intros [[[-> _] ->] ->]. reflexivity.
  - intros E. injection E as -> -> ->. auto.
Qed.
Lemma location_equal_iff a b w : location_equal a b w = true <-> agree w a b.
Proof.
  unfold location_equal, agree. to_has. change path_text with strempty.
  destruct (N.eqb_spec (designator a) (designator b)); cbn [negb]; [|split; [discriminate|intuition congruence]].
  destruct (N.eqb_spec (offset a) (offset b)); cbn [negb]; [|split; [discriminate|intuition congruence]].
  destruct (beq (strempty (path a)) (strempty (path b))) eqn:Ep; cbn [negb].
  2:{ apply beq_neq in Ep. split; [discriminate|intuition congruence]. }
  apply beq_eq in Ep.
  assert (B : forall (x : bool) (P : Prop) (y z : bool), (y = true <-> P) -> ((if x && negb y then false else z) = true <-> (x = true -> P) /\ z = true)).
  { intros x P y z H. destruct x, y, z; cbn [andb negb]; intuition congruence. }
  rewrite (B _ (size a = size b)) by apply N.eqb_eq.
  set (st := _ || _). assert (Hst : st = negb (negb st)) by (destruct st; reflexivity). rewrite Hst.
  rewrite (B _ (mtime a = mtime b /\ (mtime a <> UINT64_MAX -> inode a = inode b /\ generation_valid a = generation_valid b /\ (generation_valid a = true -> generation a = generation b)))).
  2:{ unfold st. destruct (N.eqb_spec (mtime a) (mtime b)); cbn [negb orb]; [|split; [discriminate|intuition]].
      destruct (N.eqb_spec (mtime a) UINT64_MAX); cbn [negb andb]; [intuition congruence|].
      destruct (N.eqb_spec (inode a) (inode b)); cbn [negb orb]; [|split; [discriminate|intuition]].
      destruct (Bool.eqb (generation_valid a) (generation_valid b)) eqn:Eg; cbn [negb orb].
      2:{ split; [discriminate|]. intros [_ H]. destruct (H n) as (_ & G & _). rewrite G, Bool.eqb_reflx in Eg. discriminate. }
      apply Bool.eqb_prop in Eg. destruct (generation_valid a); cbn [andb]; [|intuition congruence].
      destruct (Z.eqb_spec (generation a) (generation b)); cbn [negb]; [intuition congruence|]. split; [discriminate|intuition]. }
  rewrite (B _ (feature_flags a = feature_flags b)) by apply N.eqb_eq.
  rewrite (B _ (name_table a = name_table b)) by apply name_table_equal_iff. tauto.
Qed.

(** What can be read is a proper location. *)
Lemma not_max_inv r : (exists v, r = Ok v /\ u64 v) \/ (exists e, r = Err e) -> (exists v, not_max r = Ok v /\ v < UINT64_MAX) \/ exists e, not_max r = Err e.
Proof.
  intros [(v & -> & H)|(e & ->)]; unfold not_max; cbn [bind]; [|right; eauto]. destruct (N.eqb_spec v UINT64_MAX); [right; eauto|left; exists v]. split; [reflexivity|]. unfold u64 in H. lia.
Qed.
Lemma safe_ato_inv b s : (exists v, safe_ato b s = Ok v /\ u64 v) \/ exists e, safe_ato b s = Err e.
Proof. destruct (safe_ato_res b s) as [[v E]|[E|E]]; rewrite E; [left; exists v; split; [reflexivity|eapply safe_ato_range; exact E]|right; eauto..]. Qed.

Lemma parse_stamp_inv q : (exists a, parse_stamp q = Ok a /\
   (let '(i, m, g, v) := a in u64 i /\ m < UINT64_MAX /\ (-2147483648 <= g < 2147483648)%Z /\ (v = false -> g = 0%Z))) \/ exists e, parse_stamp q = Err e.
Proof.
  unfold parse_stamp. destruct (cut 46 q) as [[w z]|]; [|right; eauto].
  destruct (safe_ato_inv 0 w) as [(i & E & Hi)|(e & E)]; unfold safe_atou64; rewrite E; cbn [bind]; [|right; eauto].
  set (m := match cut 46 z with Some _ => _ | None => _ end).
  assert (Hm : (exists z g v, m = Ok (z, g, v) /\ (-2147483648 <= g < 2147483648)%Z /\ (v = false -> g = 0%Z)) \/ exists e, m = Err e).
  { unfold m. destruct (cut 46 z) as [[z' k]|]; [|left; eexists _, _, _; split; [reflexivity|split; [lia|reflexivity]]].
    unfold safe_atou. destruct (safe_ato_inv 0 k) as [(g & Eg & Hg)|(e & Eg)]; rewrite Eg; cbn [bind]; [|right; eauto].
    destruct (N.eqb_spec (g mod two32) g) as [Eq|Eq]; cbn [bind]; [left|right; eauto]. eexists _, _, _. split; [reflexivity|]. split; [|discriminate].
    apply int_of_range. rewrite <- Eq. apply N.mod_lt. discriminate. }
  destruct Hm as [(z' & g & v & -> & Hg & Hv)|(e & ->)]; cbn [bind]; [|right; eauto].
  destruct (safe_ato_inv 0 z') as [(t & Et & Ht)|(e & Et)]; rewrite Et; cbn [bind]; [|right; eauto].
  destruct (N.eqb_spec t UINT64_MAX); [right; eauto|left]. eexists. split; [reflexivity|]. cbn. unfold u64 in *. repeat split; auto; lia.
Qed.

Lemma location_parse_inv text : (exists l, location_parse text = Ok l /\ proper l /\ typed l /\ kept WITH_ALL l = l) \/ exists e, location_parse text = Err e.
Proof.
  unfold location_parse. destruct (rcut 43 text) as [[n plus]|] eqn:Er; [|right; eauto]. apply rcut_inv in Er.
  destruct (negb (len n =? 0) && (at_ text 0 =? 47)) eqn:Es; [right; eauto|]. destruct plus as [|d u]; [right; eauto|].
  destruct (designator_valid d) eqn:Ed; cbn [negb]; [|right; eauto]. apply kind_iff in Ed.
  destruct (suffix_inv 36 u [] (fun q => let! (nt, _) := name_table_parse q in Ok nt) (fun nt => ntable_ok nt)) as [(nt & u1 & -> & Hnt)|(e & ->)]; cbn [bind]; [constructor| | |right; eauto].
  { intros q. destruct (name_table_parse_inv q) as [(t & r & E & _ & Ht)|[E|E]]; rewrite E; cbn [bind]; [left|right..]; eauto. }
  destruct (suffix_inv 35 u1 UINT64_MAX (fun q => not_max (safe_atou64 q)) u64) as [(ao & u2 & -> & Hao)|(e & ->)]; cbn [bind]; [unfold u64; lia| | |right; eauto].
  { intros q. destruct (not_max_inv _ (safe_ato_inv 0 q)) as [(v & E & Hv)|(e & E)]; unfold safe_atou64; rewrite E; [left|right]; eauto. exists v. split; [reflexivity|unfold u64; lia]. }
  destruct (suffix_inv 37 u2 UINT64_MAX (fun q => not_max (safe_atox64 q)) u64) as [(ff & u3 & -> & Hff)|(e & ->)]; cbn [bind]; [unfold u64; lia| | |right; eauto].
  { intros q. destruct (not_max_inv _ (safe_ato_inv 16 q)) as [(v & E & Hv)|(e & E)]; unfold safe_atox64; rewrite E; [left|right]; eauto. exists v. split; [reflexivity|unfold u64; lia]. }
  destruct (suffix_inv 64 u3 (0, UINT64_MAX, 0%Z, false) parse_stamp
              (fun a => let '(i, m, g, v) := a in u64 i /\ u64 m /\ (-2147483648 <= g < 2147483648)%Z /\ (v = false -> g = 0%Z) /\ (m = UINT64_MAX -> i = 0 /\ g = 0%Z /\ v = false)))
    as [([[[i m] g] v] & u4 & -> & Hi & Hm & Hg & Hgv & Hmm)|(e & ->)]; cbn [bind]; [unfold u64, UINT64_MAX, two64; repeat split; try lia| | |right; eauto].
  { intros q. destruct (parse_stamp_inv q) as [([[[i m] g] v] & E & Hi & Hm & Hg & Hv)|(e & E)]; rewrite E; [left|right]; eauto.
    eexists. split; [reflexivity|]. cbn. unfold u64 in *. repeat split; auto; try lia. }
  destruct (suffix_inv 58 u4 UINT64_MAX (fun q => let! s := safe_atou64 q in if (s =? 0) || (s =? UINT64_MAX) then Err EINVAL else Ok s)
              (fun s => s <> 0 /\ u64 s)) as [(s & u5 & -> & Hs0 & Hs)|(e & ->)]; cbn [bind]; [unfold u64; split; [discriminate|lia]| | |right; eauto].
  { intros q. destruct (safe_ato_inv 0 q) as [(x & E & Hx)|(e & E)]; unfold safe_atou64; rewrite E; cbn [bind]; [|right; eauto].
    destruct (N.eqb_spec x 0); cbn [orb]; [right; eauto|]. destruct (x =? UINT64_MAX); [right; eauto|left; eauto]. }
  destruct (not_max_inv _ (safe_ato_inv 0 u5)) as [(o & E & Ho)|(e & E)]; unfold safe_atou64; rewrite E; cbn [bind]; [|right; eauto].
  destruct (negb (s =? UINT64_MAX) && ((o + s) mod two64 <? o)) eqn:Eo; [right; eauto|].
  destruct ((d =? DES_VOID) && negb (isempty (nonempty (Some n)))) eqn:Ev; [right; eauto|]. left. eexists. split; [reflexivity|].
  assert (Hov : s = UINT64_MAX \/ o + s <= UINT64_MAX).
  { destruct (N.eqb_spec s UINT64_MAX); [left; assumption|right]. cbn [negb andb] in Eo. apply N.ltb_ge in Eo. unfold u64 in Hs.
    destruct (N.le_gt_cases (o + s) UINT64_MAX) as [|Hgt]; [assumption|]. exfalso.
    assert ((o + s) mod two64 = o + s - two64) as Em. { symmetry. apply N.mod_unique with (q := 1); unfold UINT64_MAX, two64 in *; lia. }
    rewrite Em in Eo. unfold UINT64_MAX, two64 in *. lia. }
  split; [|split].
  - constructor; cbn [designator path offset size].
    + exact Ed.
    + intros p Hp. unfold nonempty in Hp. destruct n as [|c n]; cbn [isempty] in Hp; [discriminate|]. injection Hp as <-. split; [congruence|].
      intros q Hq. injection Hq as -> ->. subst text. change (at_ ((47 :: q) ++ ?x) 0) with 47 in Es. rewrite len_cons in Es.
      destruct (N.eqb_spec (1 + len q) 0); [lia|]. discriminate.
    + intros ->. change (118 =? DES_VOID) with true in *. cbn [andb] in Ev. split; [|reflexivity]. destruct n; [reflexivity|discriminate].
    + destruct (d =? DES_VOID); [reflexivity|exact Ho].
    + split; [exact Hs0|]. destruct (d =? DES_VOID); [right; exact Hs|exact Hov].
  - constructor; cbn [offset size mtime inode generation feature_flags archive_offset name_table]; auto. unfold u64. destruct (d =? DES_VOID); lia.
  - unfold kept. cbn [designator path offset size root mtime inode generation generation_valid feature_flags archive_offset name_table].
    change (asks_size WITH_ALL) with true. change (asks_stamp WITH_ALL) with true. change (asks_features WITH_ALL) with true.
    change (asks_archive_offset WITH_ALL) with true. change (asks_table WITH_ALL) with true. cbv iota. cbn [andb].
    destruct (N.eqb_spec m UINT64_MAX) as [Em|Em]; cbn [negb andb].
    + destruct (Hmm Em) as (-> & -> & ->). rewrite Em. reflexivity.
    + destruct v; [reflexivity|]. rewrite Hgv by reflexivity. reflexivity.
Qed.
