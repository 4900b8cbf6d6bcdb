(** The calls that extraction makes, one by one. *)
From Coq Require Import Permutation.
From Verif Require Import Base FeatureFlags ArchiveBase Decoder DecoderSpec Fs Extract ExtractSpec ExtractProofs1.
Local Open Scope N_scope.

Section Calls.
Variables (fe : fenv) (undo : bool) (w0 : fs) (b : N).
Hypothesis Hfe : sound_env fe.
Hypothesis Hw0 : sound_fs w0.
Notation okw := (okw undo w0 b).
Notation ours := (ours w0 b).
Notation odir := (odir w0 b).
Notation new := (new w0).
Notation good := (good undo w0 b).

Definition target (w : fs) (d : N) (n : list N) (i : N) : Prop := exists nd ents, dir_at w d = Some (nd, ents) /\ get n ents = Some i.
Definition not_lnk (w : fs) (i : N) : Prop := forall nd, f_ino w i = Some nd -> kind (i_body nd) <> 2.

Definition legal (w : fs) (M : option N) (c : call) : Prop :=
  match c with
  | CMkdir d n _ | CCreate d n _ | CSymlink _ d n | CUnlink d n | CRmdir d n => ours d /\ is_component n
  | CMknod d n bd _ => ours d /\ is_component n /\ kind bd <> 1 /\ kind bd <> 2
  | CRename d x y | CExchange d x y => ours d /\ is_component x /\ is_component y /\ M = None
  | CWrite i _ => M = Some i
  | CChown i _ _ | CSetXattr i _ _ | CRemoveXattr i _ | CUtime i _ => odir w i \/ M = Some i
  | CChmod i _ => odir w i \/ (M = Some i /\ not_lnk w i)
  | CChownAt d n _ _ | CUtimeAt d n _ => is_component n /\ exists i, target w d n i /\ M = Some i
  | CChmodAt d n _ => is_component n /\ exists i, target w d n i /\ M = Some i /\ not_lnk w i
  | CDropImm i => undo = true /\ (new i \/ linked w0 b i \/ ours i)
  | _ => True
  end.

Lemma where_plain w d n : is_component n -> where_ fe w d n = Some (d, n).
Proof. intros H. unfold where_. apply plain_component in H. rewrite H. reflexivity. Qed.

Lemma dir_at_entry w d nd ents n i : dir_at w d = Some (nd, ents) -> In (n, i) ents -> entry w d n i.
Proof.
  unfold dir_at. destruct (f_ino w d) as [[a bd]|] eqn:E; [|discriminate]. cbn. destruct bd; try discriminate. intros H. injection H as <- <-.
  intros I. exists a, ents0. auto.
Qed.
Lemma dir_at_dir w d nd ents : dir_at w d = Some (nd, ents) -> directory w d /\ f_ino w d = Some nd /\ i_body nd = BDir ents.
Proof.
  unfold dir_at. destruct (f_ino w d) as [[a bd]|] eqn:E; [|discriminate]. cbn. destruct bd; try discriminate. intros H. injection H as <- <-.
  split; [exists a, ents0; exact E|auto].
Qed.
Lemma dir_dir_at w d : directory w d -> exists nd ents, dir_at w d = Some (nd, ents).
Proof. intros (a & ents & E). unfold dir_at. rewrite E. cbn. eauto. Qed.

Lemma on_dir_cases w d n k x w1 (P : Prop) : is_component n -> on_dir fe w d n k = (x, w1) ->
  (w1 = w -> P) -> (forall nd ents, dir_at w d = Some (nd, ents) -> k d nd ents n = (x, w1) -> P) -> P.
Proof.
  intros Hn H H1 H2. unfold on_dir in H. rewrite where_plain in H by assumption.
  destruct (dir_at w d) as [[nd ents]|] eqn:E; [|injection H as _ <-; auto]. eauto.
Qed.
Lemma on_name_cases w d n k x w1 (P : Prop) : is_component n -> on_name fe w d n k = (x, w1) ->
  (w1 = w -> P) -> (forall nd ents i y, dir_at w d = Some (nd, ents) -> get n ents = Some i -> f_ino w i = Some y -> k d nd ents n i y = (x, w1) -> P) -> P.
Proof.
  intros Hn H H1 H2. unfold on_name in H. eapply on_dir_cases; [exact Hn|exact H|exact H1|].
  cbn beta. intros nd ents E K. destruct (get n ents) as [i|] eqn:G; [|injection K as _ <-; auto].
  destruct (f_ino w i) as [y|] eqn:Y; [|injection K as _ <-; auto]. eauto.
Qed.

Lemma old_entries w M d nd ents : okw w M -> ours d -> dir_at w d = Some (nd, ents) ->
  forall n i, In (n, i) ents -> is_component n /\ (new i \/ linked w0 b i) /\ i < f_next w /\ (M = Some i -> hid n).
Proof.
  intros K Hd Hat n i I. pose proof (dir_at_entry _ _ _ _ _ _ Hat I) as E. destruct (K_ents _ _ _ _ _ K _ _ _ Hd E) as [H1 H2].
  split; [exact H1|]. split; [exact H2|]. split; [exact (K_fresh _ _ _ _ _ K _ _ _ E)|]. intros HM.
  exact (proj2 (proj2 (K_mine _ _ _ _ _ K i HM)) _ _ E).
Qed.

(** Making files. *)
Lemma make_good w M d n bd p x w1 : okw w M -> ours d -> is_component n -> (forall ents, bd = BDir ents -> ents = []) ->
  (kind bd = 2 -> p = 0x1FF) -> make fe w d n bd p = (x, w1) ->
  good w M w1 M /\
  (forall r, x = RNum r -> r = f_next w /\ new r /\ target w1 d n r /\ (exists nd, f_ino w1 r = Some nd /\ i_body nd = bd) /\
     (forall d' n', entry w1 d' n' r -> n' = n)).
Proof.
  intros K Hd Hn Hb Hp H. unfold make, on_dir in H. rewrite where_plain in H by assumption.
  destruct (dir_at w d) as [[nd ents]|] eqn:E; [|injection H as <- <-; split; [apply good_refl, K|discriminate]].
  destruct (NAME_MAX <? len n); [injection H as <- <-; split; [apply good_refl, K|discriminate]|].
  destruct (get n ents) as [|] eqn:G; [injection H as <- <-; split; [apply good_refl, K|discriminate]|].
  destruct (a_imm (i_attrs nd)); [injection H as <- <-; split; [apply good_refl, K|discriminate]|].
  injection H as <- <-.
  set (nn := mkInode _ bd).
  assert (G1 : good w M (add_ino w nn) M).
  { apply good_new; [exact K| |]; intros t Ht; cbn in Ht |- *; [apply Hb, Ht|apply Hp; rewrite Ht; reflexivity]. }
  destruct (dir_at_dir _ _ _ _ E) as (D1 & D2 & D3).
  assert (Hneq : d <> f_next w) by (intros ->; rewrite (K_above _ _ _ _ _ K) in D2; [discriminate|lia]).
  assert (E1 : dir_at (add_ino w nn) d = Some (nd, ents)).
  { unfold dir_at. cbn [add_ino f_ino]. destruct (N.eqb_spec d (f_next w)); [contradiction|]. rewrite D2, D3. reflexivity. }
  assert (Hnew : new (f_next w)) by exact (K_next _ _ _ _ _ K).
  split.
  - eapply good_trans; [exact G1|]. eapply good_ents; [exact Hw0|apply G1|exact Hd|exact E1|].
    intros m i Hi. apply In_put in Hi. destruct Hi as [Hi | [Hi _]].
    + injection Hi as -> ->. split; [exact Hn|]. split; [left; exact Hnew|]. split; [cbn; lia|]. intros HM.
      destruct (K_mine _ _ _ _ _ K _ HM) as (_ & (y & Hy & _) & _). rewrite (K_above _ _ _ _ _ K) in Hy; [discriminate|lia].
    + pose proof (old_entries _ _ _ _ _ (G_ok _ _ _ _ _ _ _ G1) Hd E1 _ _ Hi). exact H.
  - intros r Hr. injection Hr as <-. split; [reflexivity|]. split; [exact Hnew|]. split; [|split].
    + unfold target, dir_at. cbn [set_ents set_ino f_ino]. rewrite N.eqb_refl. cbn [i_body].
      eexists _, _. split; [reflexivity|]. apply get_put_same.
    + cbn [set_ents set_ino f_ino add_ino]. destruct (N.eqb_spec (f_next w) d); [congruence|]. rewrite N.eqb_refl. exists nn. auto.
    + intros d' n' (a & es & E2 & I). cbn [set_ents set_ino f_ino add_ino] in E2.
      destruct (N.eqb_spec d' d) as [-> | Hd'].
      * injection E2 as _ <-. apply In_put in I. destruct I as [I | [I _]]; [congruence|].
        pose proof (K_fresh _ _ _ _ _ K _ _ _ (dir_at_entry _ _ _ _ _ _ E I)). lia.
      * destruct (N.eqb_spec d' (f_next w)) as [-> | _].
        -- exfalso. assert (Eb : i_body nn = BDir es) by (pose proof (f_equal (option_map i_body) E2) as Eb; cbn in Eb; injection Eb; auto). cbn in Eb. rewrite (Hb es Eb) in I. contradiction.
        -- pose proof (K_fresh _ _ _ _ _ K d' n' (f_next w)). assert (entry w d' n' (f_next w)) by (exists a, es; auto). apply H in H0. lia.
Qed.

Lemma change_good w M i f x w1 : okw w M -> (odir w i \/ M = Some i) ->
  (forall nd, f_ino w i = Some nd -> kind (i_body nd) = 2 -> a_perm (f nd) = a_perm (i_attrs nd)) ->
  change w i f = (x, w1) -> good w M w1 M.
Proof.
  intros K Hi Hf H. unfold change, on_ino in H. destruct (f_ino w i) as [nd|] eqn:E; [|injection H as _ <-; apply good_refl, K].
  destruct (a_imm (i_attrs nd)); [injection H as _ <-; apply good_refl, K|]. injection H as _ <-.
  eapply good_attr; [exact Hw0|exact K|exact E|reflexivity|tauto|]. intros Hn Hk. cbn [set_attrs i_attrs]. rewrite Hf by auto.
  destruct (i_body nd) as [| |t| | |] eqn:B; try discriminate. exact (K_lnk _ _ _ _ _ K _ _ _ Hn E B).
Qed.

Lemma dir_not_lnk w i nd : directory w i -> f_ino w i = Some nd -> kind (i_body nd) <> 2.
Proof. intros (a & e & E) H. rewrite E in H. injection H as <-. discriminate. Qed.

Lemma rename_ok w d nd ents a bn i x r w1 : okw w None -> ours d -> is_component a -> is_component bn -> dir_at w d = Some (nd, ents) -> get a ents = Some i ->
  rename_to fe w d nd ents a bn i x = (r, w1) -> good w None w1 None.
Proof.
  intros K Hd Ha Hb Hat Hg H. unfold rename_to in H.
  assert (R : good w None (set_ents fe w d nd (put bn i (del a ents))) None).
  { eapply good_ents; [exact Hw0|exact K|exact Hd|exact Hat|]. intros m j Hj. apply In_put in Hj.
    destruct Hj as [Hj | [Hj _]]; [|apply In_del in Hj; eapply old_entries; [exact K|exact Hd|exact Hat|apply Hj]].
    injection Hj as -> ->. apply get_In in Hg. pose proof (old_entries _ _ _ _ _ K Hd Hat _ _ Hg) as (_ & X & Y & _).
    split; [exact Hb|]. split; [exact X|]. split; [exact Y|discriminate]. }
  pose proof (good_refl undo w0 b w None K) as R0.
  repeat match type of H with
  | (if ?c then _ else _) = _ => destruct c
  | match ?c with _ => _ end = _ => destruct c
  end; injection H as _ <-; assumption.
Qed.

Lemma del_good w M d nd ents n : okw w M -> ours d -> dir_at w d = Some (nd, ents) -> good w M (set_ents fe w d nd (del n ents)) M.
Proof.
  intros K Hd Hat. eapply good_ents; [exact Hw0|exact K|exact Hd|exact Hat|]. intros m j Hj. apply In_del in Hj.
  eapply old_entries; [exact K|exact Hd|exact Hat|apply Hj].
Qed.

Lemma get_target w d n nd ents i j : dir_at w d = Some (nd, ents) -> get n ents = Some i -> target w d n j -> j = i.
Proof. intros H1 H2 (nd' & ents' & H3 & H4). rewrite H1 in H3. injection H3 as <- <-. congruence. Qed.

Lemma fs_do_good w M c x w1 : okw w M -> legal w M c -> fs_do fe w c = (x, w1) -> good w M w1 M.
Proof.
  intros K L H. pose proof (good_refl undo w0 b w M K) as R. destruct c; cbn [legal fs_do] in L, H.
  - destruct L as [L1 L2]. eapply make_good in H; eauto; [apply H|intros e He; congruence|discriminate].
  - destruct (dir_at w d) as [[nd ents]|]; [|]; unfold on_name, on_dir in H;
      repeat match type of H with
      | match ?c with _ => _ end = _ => destruct c
      end; injection H as _ <-; exact R.
  - unfold on_name, on_dir in H;
      repeat match type of H with
      | match ?c with _ => _ end = _ => destruct c
      end; injection H as _ <-; exact R.
  - destruct L as [L1 L2]. eapply make_good in H; eauto; [apply H|discriminate|discriminate].
  - destruct L as [L1 L2]. eapply make_good in H; eauto; [apply H|discriminate].
  - destruct L as (L1 & L2 & L3 & L4). eapply make_good in H; eauto; [apply H| |]; intros; subst; cbn in *; congruence.
  - subst M. unfold on_ino in H. destruct (f_ino w i) as [nd|] eqn:E; [|injection H as _ <-; exact R].
    destruct (a_imm (i_attrs nd)); [injection H as _ <-; exact R|].
    destruct (i_body nd) eqn:B; injection H as _ <-; try exact R.
    eapply good_data; [exact Hw0|exact K|exact E|exact B|reflexivity].
  - destruct (f_ino w i); injection H as _ <-; exact R.
  - unfold on_name, on_dir in H;
      repeat match type of H with
      | match ?c with _ => _ end = _ => destruct c
      end; injection H as _ <-; exact R.
  - unfold on_name, on_dir in H;
      repeat match type of H with
      | match ?c with _ => _ end = _ => destruct c
      end; injection H as _ <-; exact R.
  - destruct (dir_at w i) as [[? ?]|]; injection H as _ <-; exact R.
  - eapply change_good; [exact K|exact L| |exact H]. intros nd E Hk. unfold chowned.
    destruct (i_body nd) eqn:B; try discriminate. cbn [a_perm].
    destruct L as [L | L]; [exfalso; eapply dir_not_lnk; [apply L|exact E|rewrite B; reflexivity]|].
    rewrite (K_lnk _ _ _ _ _ K i nd _ (proj1 (K_mine _ _ _ _ _ K i L)) E B). reflexivity.
  - destruct L as [Ln (j & Lt & Lm)]. eapply on_name_cases; [exact Ln|exact H|intros ->; exact R|].
    intros nd ents i y Hat Hg Hy Hc. cbn beta in Hc. assert (j = i) by (eapply get_target; eauto). subst j.
    eapply change_good; [exact K|right; exact Lm| |exact Hc]. intros nd1 E Hk. unfold chowned.
    destruct (i_body nd1) eqn:B; try discriminate. cbn [a_perm].
    rewrite (K_lnk _ _ _ _ _ K i nd1 _ (proj1 (K_mine _ _ _ _ _ K i Lm)) E B). reflexivity.
  - eapply change_good; [exact K| | |exact H]; [destruct L as [L | [L _]]; auto|]. intros nd E Hk. exfalso.
    destruct L as [L | [L Ll]]; [eapply dir_not_lnk; [apply L|exact E|exact Hk]|exact (Ll _ E Hk)].
  - destruct L as [Ln (j & Lt & Lm & Ll)]. eapply on_name_cases; [exact Ln|exact H|intros ->; exact R|].
    intros nd ents i y Hat Hg Hy Hc. cbn beta in Hc. assert (j = i) by (eapply get_target; eauto). subst j.
    assert (Hc' : change w i (chmoded perm) = (x, w1)).
    { destruct (i_body y) eqn:B; try exact Hc. exfalso. apply (Ll _ Hy). rewrite B. reflexivity. }
    eapply change_good; [exact K|right; exact Lm| |exact Hc']. intros nd1 E Hk. exfalso. exact (Ll _ E Hk).
  - destruct (f_ino w i); injection H as _ <-; exact R.
  - eapply change_good; [exact K|exact L| |exact H]. reflexivity.
  - unfold on_ino in H. destruct (f_ino w i) as [nd|] eqn:E; [|injection H as _ <-; exact R].
    destruct (a_imm (i_attrs nd)); [injection H as _ <-; exact R|].
    destruct (get name _); [|injection H as _ <-; exact R]. eapply change_good; [exact K|exact L| |exact H]. reflexivity.
  - destruct (f_ino w i) as [nd|]; [|injection H as _ <-; exact R]. destruct (get name _); injection H as _ <-; exact R.
  - eapply change_good; [exact K|exact L| |exact H]. reflexivity.
  - destruct L as [Ln (j & Lt & Lm)]. eapply on_name_cases; [exact Ln|exact H|intros ->; exact R|].
    intros nd ents i y Hat Hg Hy Hc. cbn beta in Hc. assert (j = i) by (eapply get_target; eauto). subst j.
    eapply change_good; [exact K|right; exact Lm| |exact Hc]. reflexivity.
  - destruct L as (L1 & L2 & L3 & ->). eapply on_name_cases; [exact L2|exact H|intros ->; exact R|].
    intros nd ents i y Hat Hg Hy Hc. cbn beta in Hc. rewrite where_plain in Hc by assumption. rewrite N.eqb_refl in Hc. cbn [negb] in Hc.
    eapply rename_ok; [exact K|exact L1|exact L2|exact L3|exact Hat|exact Hg|exact Hc].
  - destruct L as (L1 & L2 & L3 & ->). destruct (negb (fe_exchange fe)); [injection H as _ <-; exact R|].
    eapply on_name_cases; [exact L2|exact H|intros ->; exact R|].
    intros nd ents i y Hat Hg Hy Hc. cbn beta in Hc. rewrite where_plain in Hc by assumption. rewrite N.eqb_refl in Hc. cbn [negb] in Hc.
    destruct (get b0 ents) as [j|] eqn:Gb; [|injection Hc as _ <-; exact R].
    destruct (_ || _ || _)%bool; [injection Hc as _ <-; exact R|]. injection Hc as _ <-.
    eapply good_ents; [exact Hw0|exact K|exact L1|exact Hat|]. apply get_In in Hg, Gb.
    pose proof (old_entries _ _ _ _ _ K L1 Hat) as O.
    intros m l Hl. apply In_put in Hl. destruct Hl as [Hl | [Hl _]]; [|apply In_put in Hl; destruct Hl as [Hl | [Hl _]]; [|apply O, Hl]].
    + injection Hl as -> ->. destruct (O _ _ Hg) as (_ & X & Y & _). split; [exact L3|]. split; [exact X|]. split; [exact Y|discriminate].
    + injection Hl as -> ->. destruct (O _ _ Gb) as (_ & X & Y & _). split; [exact L2|]. split; [exact X|]. split; [exact Y|discriminate].
  - destruct L as [L1 L2]. eapply on_name_cases; [exact L2|exact H|intros ->; exact R|].
    intros nd ents i y Hat Hg Hy Hc. cbn beta in Hc. destruct (is_dir y); [injection Hc as _ <-; exact R|].
    destruct (_ || _)%bool; injection Hc as _ <-; [exact R|]. apply del_good; assumption.
  - destruct L as [L1 L2]. eapply on_name_cases; [exact L2|exact H|intros ->; exact R|].
    intros nd ents i y Hat Hg Hy Hc. cbn beta in Hc.
    destruct (i_body y) as [|[|]| | | |]; try (injection Hc as _ <-; exact R).
    destruct (_ || _)%bool; injection Hc as _ <-; [exact R|]. apply del_good; assumption.
  - destruct L as [Lu Li]. destruct (f_ino w i) as [nd|] eqn:E; [|injection H as _ <-; exact R].
    destruct (a_imm (i_attrs nd)); [|injection H as _ <-; exact R]. injection H as _ <-.
    eapply good_attr; [exact Hw0|exact K|exact E|reflexivity| |].
    + right. right. split; [exact Lu|]. split; [reflexivity|tauto].
    + intros Hn Hk. cbn. destruct (i_body nd) eqn:B; try discriminate. exact (K_lnk _ _ _ _ _ K _ _ _ Hn E B).
  - injection H as _ <-. exact R.
Qed.

Lemma result_good w M c t x w1 : okw w M -> legal w M c -> result_of fe t w c = (x, w1) -> good w M w1 M.
Proof.
  intros K L H. destruct t as [|e|n]; cbn [result_of] in H.
  - eapply fs_do_good; eauto.
  - injection H as _ <-. apply good_refl, K.
  - destruct c; try (eapply fs_do_good; eauto; fail). eapply fs_do_good; [exact K| |exact H]. exact L.
Qed.
Lemma result_drop w M c t x w1 : okw w M -> legal w None c -> result_of fe t w c = (x, w1) -> good w M w1 None.
Proof.
  intros K L H. pose proof (result_good w None c t x w1 (okw_none _ _ _ _ _ K) L H) as [G1 G2 G3 G4].
  constructor; [exact G1| |right; left; reflexivity|exact G4]. intros i nd E Hk _. apply G2; auto. discriminate.
Qed.

(** ** Results *)
Lemma result_num w t c x w1 n : result_of fe t w c = (x, w1) -> x = RNum n -> (forall i p, c <> CWrite i p) -> fs_do fe w c = (RNum n, w1).
Proof. intros H -> Hc. destruct t; cbn [result_of] in H; [exact H|discriminate|]. destruct c; try exact H. congruence. Qed.

Lemma open_dir_result w M d n i w1 : okw w M -> ours d -> is_component n -> fs_do fe w (COpenDir d n) = (RNum i, w1) -> w1 = w /\ odir w i.
Proof.
  intros K Hd Hn H. cbn [fs_do] in H. unfold on_name, on_dir in H. rewrite where_plain in H by assumption.
  destruct (dir_at w d) as [[nd ents]|] eqn:E; [|discriminate]. destruct (get n ents) as [j|] eqn:G; [|discriminate].
  destruct (f_ino w j) as [[a bd]|] eqn:Y; [|discriminate]. cbn [i_body] in H. destruct bd; try discriminate. injection H as <- <-.
  split; [reflexivity|]. assert (D : directory w j) by (exists a, ents0; exact Y). split; [|exact D].
  eapply entry_ours; [exact Hw0|exact K|exact Hd| |exact D]. eapply dir_at_entry; [exact E|]. apply get_In, G.
Qed.
Lemma open_result w M d n i w1 : okw w M -> ours d -> is_component n -> fs_do fe w (COpen d n) = (RNum i, w1) -> w1 = w /\ (new i \/ linked w0 b i).
Proof.
  intros K Hd Hn H. cbn [fs_do] in H. unfold on_name, on_dir in H. rewrite where_plain in H by assumption.
  destruct (dir_at w d) as [[nd ents]|] eqn:E; [|discriminate]. destruct (get n ents) as [j|] eqn:G; [|discriminate].
  destruct (f_ino w j) as [[a bd]|] eqn:Y; [|discriminate]. cbn [i_body] in H. apply get_In in G.
  destruct (old_entries _ _ _ _ _ K Hd E _ _ G) as (_ & X & _).
  destruct bd; try discriminate; injection H as <- <-; auto.
Qed.
Lemma readdir_result w t i x w1 l : result_of fe t w (CReaddir i) = (x, w1) -> x = RNames l ->
  forall n k, In (n, k) l -> exists j, entry w i n j.
Proof.
  intros H -> n k I. assert (H' : fs_do fe w (CReaddir i) = (RNames l, w1)) by (destruct t; cbn [result_of] in H; [exact H|discriminate|exact H]).
  cbn [fs_do] in H'. destruct (dir_at w i) as [[nd ents]|] eqn:E; [|discriminate]. injection H' as <- _.
  apply (Permutation_in _ (Hfe _)) in I. apply in_map_iff in I. destruct I as ([m j] & I1 & I2). injection I1 as -> _.
  exists j. eapply dir_at_entry; eauto.
Qed.
End Calls.
