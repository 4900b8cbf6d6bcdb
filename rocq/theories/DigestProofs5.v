(** What an encoder is at while it encodes a tree that can be stored; and how the decoder reads the records of a file. *)
From Coq Require Import Sorted Permutation.
From Verif Require Import Base FeatureFlags FeatureFlagsSpec ArchiveBase Bst Encoder EncoderSpec EncoderProofs EncoderProofs2 EncoderProofs3 EncoderProofs4 EncoderProofs5
  FeatureFlagsProofs Decoder DecoderSpec DecoderProofs DecoderProofs2 DecoderProofs5 ArchiveSpec RoundTrip1 RoundTrip2 RoundTrip3 RoundTrip4 RoundTrip5 Digest DigestSpec DigestProofs1 DigestProofs2 DigestProofs3.
Local Open Scope N_scope.

Section Storable.
Variable ev : eenv.
Hypothesis Conf : configured ev.
Hypothesis Q : qsort_ok (ev_qsort ev).

(** The entries that are left are entries of the directory. *)
Definition left_ok (f : fnode) (l : list (list N * fnode)) : Prop :=
  forall x, In x l -> In x (f_ents f) /\ fst x <> [46] /\ fst x <> [46; 46].
Fixpoint nodes_ok (ns : list enode) : Prop :=
  match ns with
  | [] => True
  | n :: up => storable ev (epath up) (en_file n) /\ (forall l, en_dirents n = Some l -> left_ok (en_file n) l) /\ nodes_ok up
  end.
Definition SI (e : enc) : Prop :=
  cache_ok ev (e_cache e) /\ nodes_ok (e_nodes e) /\
  (forall c, e_child e = Some c -> storable ev (epath (e_nodes e)) c).

Lemma read_left f : left_ok f (read_dirents ev f).
Proof.
  intros x I. unfold read_dirents in I. set (fl := filter _ (f_ents f)) in I. destruct (Q _ dirent_cmp fl (orders_str fst)) as [P _].
  apply (Permutation_in _ (Permutation_sym P)) in I. unfold fl in I. apply filter_In in I. destruct I as [I D]. split; [exact I|].
  apply negb_true_iff in D. unfold dot_or_dot_dot in D. apply orb_false_iff in D. rewrite !beq_neq in D. exact D.
Qed.
Lemma left_tl f l : left_ok f l -> left_ok f (tl l).
Proof. intros L x I. apply L. destruct l; [exact I|right; exact I]. Qed.
Lemma next_left f path dir l : left_ok f l -> left_ok f (next_child ev path dir l).
Proof.
  induction l as [|[nm c] l IH]; intros L; cbn [next_child]; [exact L|]. destruct (shall_store ev path dir nm c); [exact L|]. apply IH.
  intros x I. apply L. right. exact I.
Qed.
Lemma next_stored path dir l nm c l' : next_child ev path dir l = (nm, c) :: l' -> shall_store ev path dir nm c = true.
Proof.
  induction l as [|[nm2 c2] l IH]; cbn [next_child]; [discriminate|]. destruct (shall_store ev path dir nm2 c2) eqn:S; [|exact IH].
  intros Z. injection Z as -> -> ->. exact S.
Qed.
Lemma dir_child path f nm c : storable ev path f -> S_ISDIR (f_mode f) = true -> In (nm, c) (f_ents f) -> nm <> [46] -> nm <> [46; 46] ->
  shall_store ev path f nm c = true -> storable ev (path ++ [nm]) c.
Proof.
  intros S D I N1 N2 SS. apply (kept_iff ev path f nm c N1 N2) in SS. destruct S as [| | | |path s ents S1 S2 S3 S4]; cbn [f_ents] in I; try contradiction.
  apply (S4 (nm, c) I SS).
Qed.

Lemma epath_cons n up : epath (n :: up) = epath up ++ [ename n].
Proof. reflexivity. Qed.

Lemma si_payload e n x e1 : SI e -> estep_payload e n = Ok (x, e1) -> SI e1.
Proof.
  intros S. unfold estep_payload. destruct (negb _); [discriminate|]. destruct (_ <=? _); [destruct (e_naked e)|]; intros Z; injection Z as <- <-; exact S.
Qed.
Lemma si_dirent e n up x e1 : cache_ok ev (e_cache e) -> nodes_ok (n :: up) -> estep_dirent ev e n up = Ok (x, e1) -> SI e1.
Proof.
  intros C (N1 & N2 & N3). unfold estep_dirent. destruct (S_ISDIR (f_mode (en_file n))) eqn:D; [|discriminate]. cbn [negb].
  set (l := match en_dirents n with Some _ => _ | None => _ end). destruct (_ && _)%bool; [discriminate|].
  assert (L : left_ok (en_file n) l). { unfold l. destruct (en_dirents n) as [l0|]; [exact (N2 _ eq_refl)|apply read_left]. }
  clearbody l. pose proof (next_left _ (epath up) (en_file n) _ L) as L1. pose proof (next_stored (epath up) (en_file n) l) as L2.
  destruct (next_child ev (epath up) (en_file n) l) as [|[nm c] l'].
  - intros Z. injection Z as <- <-. split; [exact C|]. split; [|discriminate]. split; [exact N1|]. split; [|exact N3].
    cbn [en_dirents]. intros l0 Z. injection Z as <-. intros y [].
  - destruct (match en_table n with None => _ | Some _ => _ end) as [tb| | |]; try discriminate. cbn [bind].
    intros Z. injection Z as <- <-. split; [exact C|]. split.
    + split; [exact N1|]. split; [|exact N3]. cbn [en_dirents]. intros l0 Z. injection Z as <-. exact L1.
    + cbn [e_child eenter eset e_nodes]. intros c0 Z. injection Z as <-. rewrite epath_cons. cbn [ename en_dirents].
      destruct (L1 (nm, c) (or_introl eq_refl)) as (I1 & I2 & I3). apply (dir_child _ _ _ _ N1 D I1 I2 I3 (L2 _ _ _ eq_refl)).
Qed.
Lemma si_next e n up x e1 : cache_ok ev (e_cache e) -> nodes_ok (n :: up) -> estep_next_dirent ev e n up = Ok (x, e1) -> SI e1.
Proof.
  intros C (N1 & N2 & N3). unfold estep_next_dirent. destruct (match en_table n with None => _ | Some _ => _ end) as [tb| | |]; try discriminate. cbn [bind].
  apply si_dirent; [exact C|]. split; [exact N1|]. split; [|exact N3]. cbn [en_dirents]. intros l. destruct (en_dirents n) as [l0|]; [|discriminate].
  intros Z. injection Z as <-. apply left_tl, N2. reflexivity.
Qed.
Lemma si_entered e n up x e1 : cache_ok ev (e_cache e) -> nodes_ok (n :: up) ->
  (forall c, e_child e = Some c -> storable ev (epath (n :: up)) c) -> estep_entered e n up = Ok (x, e1) -> SI e1.
Proof.
  intros C (N1 & N2 & N3) Ch. unfold estep_entered. intros Z. injection Z as <- <-. split; [exact C|]. split; [|exact Ch].
  split; [exact N1|]. split; [exact N2|exact N3].
Qed.

Lemma SI_step e x e1 : SI e -> encoder_step ev e = Ok (x, e1) -> SI e1.
Proof.
  intros (C & NO & Ch) ST. unfold encoder_step in ST. destruct (e_state e) eqn:St0.
  10: { injection ST as <- <-. exact (conj C (conj NO Ch)). }
  all: cbn [eadvance e_nodes] in ST; destruct (e_nodes e) as [|n up] eqn:Nd; [discriminate|]; unfold estep_node in ST; cbn [eadvance e_state] in ST; rewrite St0 in ST;
    assert (S0 : SI (eadvance e)) by (unfold SI; cbn [eadvance e_nodes e_cache e_child]; rewrite Nd; exact (conj C (conj NO Ch))).
  - destruct (e_naked (eadvance e)).
    + eapply si_payload; [|exact ST]. exact S0.
    + eapply si_entered; [| | |exact ST]; [exact C|exact NO|exact Ch].
  - eapply si_entered; [| | |exact ST]; [exact C|exact NO|exact Ch].
  - destruct (shall_enumerate (en_file n)); [destruct (S_ISREG (f_mode (en_file n))); [|destruct (S_ISDIR (f_mode (en_file n)))]|destruct (S_ISDIR (f_mode (en_file n)))].
    + eapply si_payload; [|exact ST]. exact S0.
    + eapply si_dirent; [| |exact ST]; [exact C|exact NO].
    + injection ST as <- <-. exact S0.
    + injection ST as <- <-. exact S0.
    + injection ST as <- <-. exact S0.
  - eapply si_payload; [|exact ST]. exact S0.
  - eapply si_dirent; [| |exact ST]; [exact C|exact NO].
  - eapply si_next; [| |exact ST]; [exact C|exact NO].
  - cbn [eadvance e_child] in ST. destruct (e_child e) as [c|] eqn:EC; [|discriminate]. destruct (f_mode c =? 0); [discriminate|].
    eapply si_entered; [| | |exact ST]; [exact C| |discriminate]. split; [exact (Ch _ eq_refl)|]. split; [discriminate|exact NO].
  - injection ST as <- <-. exact S0.
  - destruct up as [|p up'].
    + injection ST as <- <-. exact S0.
    + eapply si_next; [| |exact ST]; [exact C|exact (proj2 (proj2 NO))].
Qed.

Lemma SI_get e n o e1 : SI e -> encoder_get_data ev e n = Ok (o, e1) -> SI e1.
Proof.
  intros (C & NO & Ch) G. unfold encoder_get_data in G. destruct (_ <? _).
  { injection G as <- <-. exact (conj C (conj NO Ch)). }
  destruct (e_nodes e) as [|nd up] eqn:Nd; [discriminate|].
  assert (K : forall b c, cache_ok ev c -> SI (ewith e b c)) by (intros b c C2; unfold SI, ewith; cbn [e_nodes e_cache e_child]; rewrite Nd; exact (conj C2 (conj NO Ch))).
  assert (K0 : SI e) by (unfold SI; rewrite Nd; exact (conj C (conj NO Ch))).
  destruct (e_state e); try discriminate.
  - destruct (get_entry_data ev (e_cache e) (en_file nd)) as [[b c]| | |] eqn:EN; try discriminate. cbn [bind] in G. injection G as <- <-. apply K.
    unfold get_entry_data in EN. destruct (entry_meta ev (e_cache e) (f_stat (en_file nd))) as [[m c2]| | |] eqn:EM; try discriminate. cbn [bind] in EN. injection EN as <- <-.
    destruct NO as [N1 _]. destruct (storable_stat _ _ _ N1) as [S1 S2].
    exact (proj1 (meta_ok ev Q (configured_fine ev Conf) _ _ _ _ C S1 S2 EM)).
  - destruct (negb _); [discriminate|]. destruct (get_payload_data _ _ _) as [[b|]| | |]; try discriminate; cbn [bind] in G; injection G as <- <-; auto.
  - destruct (en_dirents nd) as [[|[nm ?] ?]|]; try discriminate. injection G as <- <-. auto.
  - destruct (en_table nd) as [[eo items]|]; [|discriminate]. destruct (_ <? _); [discriminate|].
    destruct (get_goodbye_data _ _ _ _); try discriminate. cbn [bind] in G. injection G as <- <-. auto.
Qed.

Lemma SI_new f e : storable ev [] f -> encoder_new f = Ok e -> SI e.
Proof.
  intros S. unfold encoder_new. destruct (_ && _)%bool; [discriminate|]. intros Z. injection Z as <-.
  split; [apply cache0_ok|]. split; [|discriminate]. split; [exact S|]. split; [discriminate|exact I].
Qed.

Lemma entry_P env ar f p : parse_entry env ar f p = P env ar f pacc0 p 0.
Proof. reflexivity. Qed.
Lemma parsed env m tl x c w : ff_ok env (ev_ff ev) (ev_ff ev) -> dec_file (ev_ff ev) m -> fits m w -> len tl = c ->
  parse_obj env (ev_ff ev) (acc_of (ev_ff ev) m) (tl ++ x) = (PDone (acc_of (ev_ff ev) m) c w, ev_ff ev) ->
  parses_to env (ev_ff ev) (ser_meta ev m ++ tl) (mkDentry m (match w with PSymlink s => Some s | _ => None end) (match w with PDevice a b => Some (a, b) | _ => None end)
    (match w with PPayload s => Some s | _ => None end)).
Proof.
  intros F D Fi L E. exists false, x, (ev_ff ev). rewrite entry_P.
  rewrite <- app_assoc, (P_meta env (ev_ff ev) ev) by (reflexivity || assumption || apply D).
  rewrite (P_done env (ev_ff ev) false m _ _ c w D Fi); [|discriminate|exact E]. rewrite len_app, L. reflexivity.
Qed.

Local Opaque ser_meta le64 obj.
Lemma described env path f c ent c' : (de_expected env = UINT64_MAX \/ de_expected env = ev_ff ev) -> storable ev path f -> cache_ok ev c ->
  get_entry_data ev c f = Ok (ent, c') -> S_ISDIR (f_mode f) = false -> readable f -> HDR + len (contents f) < UINT64_MAX ->
  exists t, stores ev path f t /\ describes env (ev_ff ev) ent (entry_of t) (contents f) /\
    tree_obs path t = OFile path (entry_of t) :: map OByte (contents f) ++ [ODone path].
Proof.
  intros X St Ca G ND Rd Sz. destruct (storable_stat _ _ _ St) as [So Kt].
  unfold get_entry_data in G. destruct (entry_meta ev c (f_stat f)) as [[m c2]| | |] eqn:E; cbn [bind] in G; try discriminate.
  injection G as <- <-.
  destruct (meta_ok ev Q (configured_fine ev Conf) c (f_stat f) m c2 Ca So Kt E) as (Ca2 & Ms & Df & Mm & Ts).
  assert (Tm : forall t, is_type (m_mode m) t = is_type (f_mode f) t) by (intros t; rewrite Mm; apply type_fixup).
  clear E. pose proof (ff_accepted env ev Conf X) as FA. 
  assert (FF : ff_ok env (ev_ff ev) (ev_ff ev)).
  { destruct FA as (V & W & Y). split; [|auto]. exact (validate_feature_flags_again _ _ _ _ V). }
  assert (FM : ev_ff ev <> UINT64_MAX).
  { destruct (configured_fine ev Conf) as [K _ _]. exact (known_not_max _ K). }
  unfold contents, readable, ser_tail, f_mode in *.
  destruct f as [s size data|s ents|s tg|s x y|s]; inversion St; subst; cbn [f_stat f_target f_dev f_size f_data fst snd] in *.
  - match goal with H : S_ISREG _ = true |- _ => rename H into R end. rewrite R in *. cbn [f_stat].
    assert (SE : shall_enumerate (FReg s size data) = negb (fs_virtual s)) by (rewrite shall_not_virtual; [reflexivity|exact R]). rewrite SE.
    assert (Rm : S_ISREG (m_mode m) = true) by (unfold S_ISREG in *; rewrite Tm; exact R).
    exists (TReg m (if fs_virtual s then [] else takeN size data)). split; [apply stores_reg, Ms|].
    set (d := if fs_virtual s then [] else takeN size data) in *.
    assert (Ld : (if negb (fs_virtual s) then size else 0) = len d).
    { unfold d. specialize (Rd eq_refl). destruct (fs_virtual s); cbn [negb]; [reflexivity|]. rewrite len_takeN, N.min_l; [reflexivity|exact (Rd eq_refl)]. }
    rewrite Ld. clearbody d. split; [|reflexivity]. split; [|split; [exact FM|right; discriminate]].
    apply (parsed env m _ [] HDR (PPayload (len d)) FF Df); [exact Rm|rewrite len_app, !len_le64; reflexivity|].
    rewrite <- app_assoc. apply end_payload; assumption.
  - congruence.
  - match goal with H : S_ISLNK _ = true |- _ => rename H into R end.
    assert (Dn : S_ISREG (st_mode s) = false) by (unfold S_ISREG, S_ISLNK in *; rewrite (is_type_inj _ _ _ R); reflexivity).
    rewrite Dn, R in *. assert (Rm : S_ISLNK (m_mode m) = true) by (unfold S_ISLNK in *; rewrite Tm; exact R).
    exists (TLnk m tg). split; [constructor; exact Ms|]. split; [|reflexivity]. split; [|split; [exact FM|left; reflexivity]].
    apply (parsed env m (obj F_SYMLINK (tg ++ [0])) [] (len (obj F_SYMLINK (tg ++ [0]))) (PSymlink tg) FF Df); [exact Rm|reflexivity|]. apply end_symlink; try assumption.
    unfold type_stored in Ts. rewrite R in Ts. destruct (has (ev_ff ev) WITH_SYMLINKS); [reflexivity|discriminate].
  - match goal with H : (S_ISBLK _ || S_ISCHR _)%bool = true |- _ => rename H into R end.
    assert (Dn : S_ISREG (st_mode s) = false /\ S_ISLNK (st_mode s) = false)
      by (unfold S_ISREG, S_ISLNK, S_ISBLK, S_ISCHR in *; apply orb_true_iff in R; destruct R as [R | R]; rewrite !(is_type_inj _ _ _ R); auto).
    destruct Dn as (D1 & D2). rewrite D1, D2, R in *.
    assert (Rm : (S_ISBLK (m_mode m) || S_ISCHR (m_mode m))%bool = true) by (unfold S_ISBLK, S_ISCHR in *; rewrite !Tm; exact R).
    exists (TDev m x y). split; [constructor; exact Ms|]. split; [|reflexivity]. split; [|split; [exact FM|left; reflexivity]].
    apply (parsed env m (obj F_DEVICE (le64 x ++ le64 y)) [] (len (obj F_DEVICE (le64 x ++ le64 y))) (PDevice x y) FF Df); [exact Rm|reflexivity|]. apply end_device; try assumption.
    unfold type_stored in Ts. rewrite D2, R in Ts. rewrite andb_false_r in Ts. destruct (has (ev_ff ev) WITH_DEVICE_NODES); [reflexivity|discriminate].
  - match goal with H : (S_ISFIFO _ || S_ISSOCK _)%bool = true |- _ => rename H into R end.
    assert (Dn : S_ISREG (st_mode s) = false /\ S_ISLNK (st_mode s) = false /\ S_ISBLK (st_mode s) = false /\ S_ISCHR (st_mode s) = false)
      by (unfold S_ISREG, S_ISLNK, S_ISBLK, S_ISCHR, S_ISFIFO, S_ISSOCK in *; apply orb_true_iff in R; destruct R as [R | R]; rewrite !(is_type_inj _ _ _ R); auto).
    destruct Dn as (D1 & D2 & D3 & D4). rewrite D1, D2, D3, D4 in *. cbn [orb].
    assert (Rm : (S_ISFIFO (m_mode m) || S_ISSOCK (m_mode m))%bool = true) by (unfold S_ISFIFO, S_ISSOCK in *; rewrite !Tm; exact R).
    exists (TOther m). split; [constructor; exact Ms|]. split; [|reflexivity]. split; [|split; [exact FM|left; reflexivity]].
    rewrite (app_nil_r (ser_meta ev m)). exists false, (obj F_FILENAME ([97] ++ [0])), (ev_ff ev).
    rewrite entry_P.
    rewrite (P_meta env (ev_ff ev) ev) by (reflexivity || assumption || apply Df).
    apply next_entry; [exact Df| |right; exact Rm|discriminate].
    left. exists [97], []. rewrite app_nil_r. split; [reflexivity|]. split; [|reflexivity].
    repeat split; try discriminate; cbn [In]; intros [Z | []]; discriminate.
Qed.

(** Whether a file can be stored depends on its path only for directories. *)
Lemma storable_anywhere path path' f : S_ISDIR (f_mode f) = false -> storable ev path f -> storable ev path' f.
Proof.
  intros D S. unfold f_mode in D. destruct S; try (constructor; assumption). cbn [f_stat] in D. congruence.
Qed.
End Storable.
