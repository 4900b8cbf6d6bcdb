(** What the encoder's digests are. *)
From Verif Require Import Base FeatureFlags ArchiveBase Bst Encoder EncoderSpec EncoderProofs EncoderProofs2 Decoder DecoderSpec
  Digest DigestSpec DigestProofs2.
Local Open Scope N_scope.

Lemma none_any ev e s e2 : encoder_get_data ev e s = Ok (None, e2) -> encoder_get_data ev e 1 = Ok (None, e2).
Proof.
  unfold encoder_get_data. destruct (_ <? _); [discriminate|]. destruct (e_nodes e); [discriminate|].
  destruct (e_state e); try discriminate.
  - destruct (get_entry_data _ _ _) as [[? ?]| | |]; discriminate.
  - destruct (negb _); [discriminate|]. unfold get_payload_data. destruct (_ <=? _); [auto|].
    intros Z. exfalso. destruct (negb (len _ =? _)); discriminate.
  - destruct (en_dirents e0) as [[|[? ?] ?]|]; discriminate.
  - destruct (en_table e0) as [[? ?]|]; [|discriminate]. destruct (_ <? _); [discriminate|].
    destruct (get_goodbye_data _ _ _ _); discriminate.
Qed.

(** What a step does to the state. *)
Definition eshape (e : enc) (x : eret) (e1 : enc) : Prop :=
  e_buf e1 = [] /\
  match x with
  | ER_NEXT_FILE => e_state e1 = E_ENTRY /\ e_poff e1 = 0
  | ER_DATA => (e_state e1 = E_FILENAME \/ e_state e1 = E_GOODBYE) /\ exists n up, e_nodes e1 = n :: up /\ S_ISDIR (f_mode (en_file n)) = true
  | ER_PAYLOAD =>
      e_state e1 = E_IN_PAYLOAD /\ e_nodes e1 = e_nodes e /\
      (e_state e = E_ENTRY /\ e_poff e1 = 0 /\ (exists n up, e_nodes e = n :: up /\ shall_enumerate (en_file n) = true) \/
       e_state e = E_INIT /\ e_naked e = true \/
       e_state e = E_IN_PAYLOAD /\ e_poff e1 = e_poff e + len (e_buf e))
  | ER_DONE_FILE =>
      e_state e1 = E_FINALIZE /\ e_nodes e1 = e_nodes e /\ exists n up, e_nodes e = n :: up /\
      (e_state e = E_ENTRY /\ S_ISDIR (f_mode (en_file n)) = false /\
         (S_ISREG (f_mode (en_file n)) = true -> shall_enumerate (en_file n) = true -> f_size (en_file n) = 0) \/
       e_state e = E_IN_PAYLOAD /\ f_size (en_file n) <= e_poff e + len (e_buf e) /\ e_naked e = false \/
       e_state e = E_GOODBYE)
  | ER_FINISHED => e_state e1 = E_EOF
  end.

Section Shape.
Variable ev : eenv.

Lemma sh_payload e e' n up x e1 : e_nodes e' = n :: up -> e_nodes e = n :: up -> e_buf e' = [] ->
  S_ISREG (f_mode (en_file n)) = true -> e_state e' = E_IN_PAYLOAD ->
  (e_state e = E_ENTRY /\ e_poff e' = 0 /\ shall_enumerate (en_file n) = true \/
   e_state e = E_INIT /\ e_naked e = true \/ e_state e = E_IN_PAYLOAD /\ e_poff e' = e_poff e + len (e_buf e)) ->
  estep_payload e' n = Ok (x, e1) -> eshape e x e1.
Proof.
  intros N1 N2 B R St C. unfold estep_payload. rewrite R. cbn [negb].
  assert (NK : e_naked e' = e_naked e) by (unfold e_naked; rewrite N1, N2; reflexivity). rewrite NK.
  destruct (N.leb_spec (f_size (en_file n)) (e_poff e')) as [L | L].
  - destruct (e_naked e) eqn:K; intros Z; injection Z as <- <-; (split; [exact B|]).
    + reflexivity.
    + cbn [eenter e_state e_nodes]. split; [reflexivity|]. split; [congruence|]. exists n, up. split; [exact N2|].
      destruct C as [(C1 & C2 & C3) | [(C1 & C2) | (C1 & C2)]].
      * left. split; [exact C1|]. split; [apply reg_dir_excl, R|]. intros _ _. rewrite C2 in L. clear -L. lia.
      * congruence.
      * right; left. rewrite C2 in L. auto.
  - intros Z; injection Z as <- <-. split; [exact B|]. cbn [eenter e_state e_nodes]. split; [exact St|]. split; [congruence|].
    destruct C as [(C1 & C2 & C3) | [(C1 & C2) | (C1 & C2)]]; [left|right; left|right; right]; repeat split; auto. exists n, up. auto.
Qed.

Lemma sh_dirent e e' n up x e1 : e_buf e' = [] -> estep_dirent ev e' n up = Ok (x, e1) -> eshape e x e1.
Proof.
  intros B. unfold estep_dirent. destruct (S_ISDIR (f_mode (en_file n))) eqn:D; [|discriminate]. cbn [negb].
  destruct (_ && _)%bool; [discriminate|]. destruct (next_child _ _ _ _) as [|[name c] l].
  - intros Z; injection Z as <- <-. split; [exact B|]. split; [right; reflexivity|]. cbn [eenter eset e_nodes]. eexists _, _. split; [reflexivity|exact D].
  - destruct (match en_table n with None => _ | Some _ => _ end); try discriminate. cbn [bind].
    intros Z; injection Z as <- <-. split; [exact B|]. split; [left; reflexivity|]. cbn [eenter eset e_nodes]. eexists _, _. split; [reflexivity|exact D].
Qed.
Lemma sh_next e e' n up x e1 : e_buf e' = [] -> estep_next_dirent ev e' n up = Ok (x, e1) -> eshape e x e1.
Proof.
  intros B. unfold estep_next_dirent. destruct (match en_table n with None => _ | Some _ => _ end); try discriminate. cbn [bind].
  apply sh_dirent, B.
Qed.
Lemma sh_entered e e' n up x e1 : e_buf e' = [] -> estep_entered e' n up = Ok (x, e1) -> eshape e x e1.
Proof. intros B. unfold estep_entered. intros Z; injection Z as <- <-. split; [exact B|]. split; reflexivity. Qed.

Lemma e_shape e x e1 : J e -> e_state e <> E_EOF -> encoder_step ev e = Ok (x, e1) -> eshape e x e1.
Proof.
  intros [Hd HJ] He. unfold encoder_step.
  replace (match e_state e with E_EOF => Ok (ER_FINISHED, e) | _ => match e_nodes (eadvance e) with [] => Err EUNATCH | n :: up => estep_node ev (eadvance e) n up end end)
    with (match e_nodes (eadvance e) with [] => Err EUNATCH | n :: up => estep_node ev (eadvance e) n up end)
    by (destruct (e_state e); congruence).
  cbn [eadvance e_nodes]. destruct (e_nodes e) as [|n up] eqn:Hn; [contradiction|]. destruct HJ as [Hup HJ].
  unfold estep_node. cbn [eadvance e_state]. set (e0 := eadvance e).
  destruct (e_state e) eqn:Hs; try contradiction.
  - change (e_naked e0) with (e_naked e). destruct (e_naked e) eqn:K.
    + apply (sh_payload e (eenter e0 E_IN_PAYLOAD) n up); auto. unfold e_naked in K. rewrite Hn in K. destruct up; [exact K|discriminate].
    + apply sh_entered. reflexivity.
  - destruct (shall_enumerate (en_file n)) eqn:SE.
    + destruct (S_ISREG (f_mode (en_file n))) eqn:R.
      * apply (sh_payload e (eenter e0 E_IN_PAYLOAD) n up); auto.
      * destruct (S_ISDIR (f_mode (en_file n))) eqn:D.
        -- apply sh_dirent. reflexivity.
        -- intros Z; injection Z as <- <-. split; [reflexivity|]. split; [reflexivity|]. split; [reflexivity|]. exists n, up. split; [exact Hn|].
           left. split; [exact Hs|]. split; [exact D|]. congruence.
    + destruct (S_ISDIR (f_mode (en_file n))) eqn:D.
      * intros Z; injection Z as <- <-. split; [reflexivity|]. split; [right; reflexivity|]. exists n, up. split; [exact Hn|exact D].
      * intros Z; injection Z as <- <-. split; [reflexivity|]. split; [reflexivity|]. split; [reflexivity|]. exists n, up. split; [exact Hn|].
        left. split; [exact Hs|]. split; [exact D|]. congruence.
  - destruct HJ as (R & _). apply (sh_payload e e0 n up); auto.
  - destruct (e_child e0); [|discriminate]. destruct (_ =? 0); [discriminate|]. apply sh_entered. reflexivity.
  - intros Z; injection Z as <- <-. split; [reflexivity|]. split; [reflexivity|]. split; [reflexivity|]. exists n, up. split; [exact Hn|]. right; right; exact Hs.
  - destruct up as [|p up].
    + intros Z; injection Z as <- <-. split; reflexivity.
    + apply sh_next. reflexivity.
Qed.
End Shape.

Lemma shall_not_virtual f : S_ISREG (f_mode f) = true -> shall_enumerate f = negb (fs_virtual (f_stat f)).
Proof. intros R. unfold shall_enumerate. rewrite R. rewrite andb_false_r. reflexivity. Qed.

Section Enc.
Variable H : digest_type -> list N -> list N.
Variable ev : eenv.
Variables wa wp wh : bool.
(** What else is known of the encoder. *)
Variable SI : enc -> Prop.
Hypothesis SI_step : forall e x e', SI e -> encoder_step ev e = Ok (x, e') -> SI e'.
Hypothesis SI_get : forall e n o e', SI e -> encoder_get_data ev e n = Ok (o, e') -> SI e'.
Let ty := e_type ev.

Definition came (c : ecache) (f : fnode) : Prop := exists e n up, SI e /\ e_nodes e = n :: up /\ en_file n = f /\ e_cache e = c.
Definition gave (c : ecache) (f : fnode) (ent : list N) (c' : ecache) : Prop := get_entry_data ev c f = Ok (ent, c') /\ came c f.
Definition readable (f : fnode) : Prop := S_ISREG (f_mode f) = true -> fs_virtual (f_stat f) = false -> f_size f <= len (f_data f).

Definition epay_ok (f : fnode) (vp : option (res (list N))) : Prop := forall v, vp = Some v ->
  v = if negb wp then Err ENOMEDIUM
      else if (S_ISREG (f_mode f) || S_ISBLK (f_mode f))%bool then Ok (H ty (contents f)) else Err ENOTTY.
Definition elink_ok (B : list N) (f : fnode) (vh : option (res (list N))) : Prop := forall v, vh = Some v ->
  if negb wh then v = Err ENOMEDIUM
  else if S_ISDIR (f_mode f) then v = Err EISDIR
  else exists pre ent post c c', B = pre ++ (ent ++ contents f) ++ post /\ gave c f ent c' /\
         v = Ok (H ty (ent ++ contents f)) /\ readable f.
Definition ereport (B : list N) (o : eobs) : Prop := match o with EDone f vp vh => epay_ok f vp /\ elink_ok B f vh end.

Definition fetched (g : digs) (B : list N) (f : fnode) (data : list N) : Prop :=
  exists pre ent c c', B = pre ++ ent ++ data /\ gave c f ent c' /\
    (wp = true -> holds (g_p g) ty data) /\ (wh = true -> holds (g_h g) ty (ent ++ data)).

Record GE (e : enc) (g : digs) (B : list N) : Prop := mkGE {
  ge_J : J e;
  ge_si : SI e;
  ge_wants : g_want_a g = wa /\ g_want_p g = wp /\ g_want_h g = wh /\ g_bad_p g = false /\ g_bad_h g = false;
  ge_p : typed (g_p g) ty;
  ge_h : typed (g_h g) ty;
  ge_a : wa = true -> holds (g_a g) ty B;
  ge_file : match e_state e with
    | E_ENTRY => exists n up, e_nodes e = n :: up /\ fetched g B (en_file n) []
    | E_IN_PAYLOAD => exists n up, e_nodes e = n :: up /\
        (e_naked e = true \/ e_naked e = false /\ shall_enumerate (en_file n) = true /\ fetched g B (en_file n) (takeN (e_poff e + len (e_buf e)) (f_data (en_file n))))
    | E_GOODBYE => exists n up, e_nodes e = n :: up /\ S_ISDIR (f_mode (en_file n)) = true
    | _ => True
    end }.

Lemma holds_app o t a b : holds o t a -> holds (digest_write o t b) t (a ++ b).
Proof. apply holds_write. Qed.

(** The digests when an entry, then when payload is fetched. *)
Lemma get_first e g n b s' : e_buf e = [] -> ge_get_data ev (e, g) n = Ok (Some b, s') ->
  encoder_get_data ev e n = Ok (Some b, fst s') /\
  snd s' = (let really_h := (g_want_h g && negb (g_bad_h g) && match e_state e with E_ENTRY | E_IN_PAYLOAD => true | _ => false end)%bool in
            let really_p := (g_want_p g && negb (g_bad_p g) && match e_state e with E_IN_PAYLOAD => true | _ => false end)%bool in
            mkDigs (g_want_a g) (g_want_p g) (g_want_h g) (g_bad_p g) (g_bad_h g)
              (if g_want_a g then digest_write (g_a g) ty b else g_a g)
              (if really_p then digest_write (g_p g) ty b else g_p g)
              (if really_h then digest_write (g_h g) ty b else g_h g)).
Proof.
  intros B. unfold ge_get_data. destruct (encoder_get_data ev e n) as [[o e']| | |] eqn:G; try discriminate. cbn [bind].
  rewrite B. change (0 <? len []) with false. cbv iota. destruct o as [b'|]; [|discriminate]. intros Z. injection Z as <- <-. split; [reflexivity|].
  cbn [snd]. destruct g as [a p h bp bh ga gp gh]. cbn [g_want_a g_want_p g_want_h g_bad_p g_bad_h].
  destruct (h && negb bh && match e_state e with E_ENTRY | E_IN_PAYLOAD => true | _ => false end)%bool,
    (p && negb bp && match e_state e with E_IN_PAYLOAD => true | _ => false end)%bool, a; reflexivity.
Qed.

Lemma gfetch_eq s p s' : gfetch ev s p s' -> e_buf (fst s) = [] ->
  (forall n b e2, 0 < n -> encoder_get_data ev (fst s) n = Ok (Some b, e2) -> e_buf e2 = b /\ b <> []) ->
  exists n, 0 < n /\ ge_get_data ev s n = Ok (Some p, s') /\ e_buf (fst s') = p /\ p <> [].
Proof.
  induction 1 as [s n b s' Hn G|s b s1 n b' s2 F IH G]; intros B A.
  - exists n. destruct s as [e g]. destruct (get_first _ _ _ _ _ B G) as [G1 _]. destruct (A _ _ _ Hn G1) as [A1 A2]. auto.
  - destruct (IH B A) as (n0 & N0 & G0 & B1 & B2). exists n0. destruct s1 as [e1 g1]. cbn [fst] in B1.
    unfold ge_get_data in G. rewrite (get_again ev e1 n b B1 B2) in G. cbn [bind] in G.
    assert (L : (0 <? len (e_buf e1)) = true). { apply N.ltb_lt. rewrite B1. destruct b; [congruence|]. rewrite len_cons. clear. lia. }
    rewrite L in G. injection G as <- <-. auto.
Qed.

Lemma entry_fetch e n up s b e2 : e_state e = E_ENTRY -> e_buf e = [] -> e_poff e = 0 -> e_nodes e = n :: up ->
  encoder_get_data ev e s = Ok (Some b, e2) ->
  exists c', get_entry_data ev (e_cache e) (en_file n) = Ok (b, c') /\ e2 = ewith e b c'.
Proof.
  intros S B P Nd. unfold encoder_get_data. rewrite B. change (0 <? len []) with false. cbv iota. rewrite Nd, S, P.
  destruct (get_entry_data _ _ _) as [[b' c']| | |]; try discriminate. cbn [bind]. rewrite dropN_0. intros Z. injection Z as <- <-. eauto.
Qed.
Lemma payload_fetch e n up s b e2 : e_state e = E_IN_PAYLOAD -> e_buf e = [] -> e_nodes e = n :: up ->
  encoder_get_data ev e s = Ok (Some b, e2) ->
  b = takeN (len b) (dropN (e_poff e) (f_data (en_file n))) /\ e2 = ewith e b (e_cache e).
Proof.
  intros S B Nd. unfold encoder_get_data. rewrite B. change (0 <? len []) with false. cbv iota. rewrite Nd, S.
  destruct (negb _); [discriminate|]. unfold get_payload_data. destruct (_ <=? _); [discriminate|]. 
  match goal with |- context [negb (len ?m =? ?k)] => destruct (N.eqb_spec (len m) k) as [E | E]; [|discriminate] end.
  cbn [negb bind]. intros Z. injection Z as <- <-. split; [|reflexivity]. rewrite E. reflexivity.
Qed.
Lemma other_fetch e s b e2 : e_state e = E_FILENAME \/ e_state e = E_GOODBYE -> e_buf e = [] ->
  encoder_get_data ev e s = Ok (Some b, e2) -> e_state e2 = e_state e /\ e_nodes e2 = e_nodes e.
Proof.
  intros S B. unfold encoder_get_data. rewrite B. change (0 <? len []) with false. cbv iota. destruct (e_nodes e) as [|n up] eqn:Nd; [discriminate|].
  destruct S as [S | S]; rewrite S.
  - destruct (en_dirents n) as [[|[name c] l]|]; try discriminate. intros Z. injection Z as <- <-. cbn. auto.
  - destruct (en_table n) as [[eo items]|]; try discriminate. destruct (_ <? _); [discriminate|].
    destruct (get_goodbye_data _ _ _ _); try discriminate. cbn [bind]. intros Z. injection Z as <- <-. cbn. auto.
Qed.

Lemma GE_data e g B x s1 p s2 : GE e g B -> e_state e <> E_EOF -> ge_step ev (e, g) = Ok (x, s1) -> has_data x = true -> gfetch ev s1 p s2 ->
  GE (fst s2) (snd s2) (B ++ p) /\ e_state (fst s2) <> E_EOF.
Proof.
  intros [G1 G7 G2 G3 G4 G5 G6] NE ST HD F. unfold ge_step in ST. cbn [fst snd] in ST.
  destruct (encoder_step ev e) as [[x' e1]| | |] eqn:ES; try discriminate. cbn [bind] in ST. injection ST as -> <-.
  set (g1 := match x with ER_NEXT_FILE => _ | _ => g end) in *.
  pose proof (e_shape ev _ _ _ G1 NE ES) as [B1 SH]. pose proof (step_ok ev e G1 NE) as SO. rewrite ES in SO.
  assert (SO' : forall s, 0 < s -> match encoder_get_data ev e1 s with
        | Ok (Some b, e2) => J e2 /\ rem ev e = wout b (rem ev e2) /\ e_buf e2 = b /\ b <> []
        | Ok (None, _) => False | Err er => snd (rem ev e) = Err er | Abort | UB => crash (snd (rem ev e)) end).
  { destruct x; try discriminate; exact SO. }
  clear SO. destruct (gfetch_eq _ _ _ F) as (n & N0 & G & B2 & B3); [exact B1| |].
  { cbn [fst]. intros n b e2 N0 G. specialize (SO' n N0). rewrite G in SO'. tauto. }
  destruct (get_first _ _ _ _ _ B1 G) as [GD GG]. specialize (SO' n N0). rewrite GD in SO'. destruct SO' as (J2 & _ & _ & _).
  destruct s2 as [e2 g2]. cbn [fst snd] in *. destruct G2 as (W1 & W2 & W3 & W4 & W5).
  assert (Q : g_want_a g1 = wa /\ g_want_p g1 = wp /\ g_want_h g1 = wh /\ g_bad_p g1 = false /\ g_bad_h g1 = false /\ g_a g1 = g_a g /\
              typed (g_p g1) ty /\ typed (g_h g1) ty /\
              (x = ER_NEXT_FILE -> (wp = true -> holds (g_p g1) ty []) /\ (wh = true -> holds (g_h g1) ty [])) /\ (x <> ER_NEXT_FILE -> g1 = g)).
  { unfold g1. destruct x; try discriminate; [|repeat split; auto; congruence..].
    destruct g as [a p0 h bp bh ga gp gh]. cbn [g_want_a g_want_p g_want_h g_bad_p g_bad_h g_a g_p g_h] in *. subst.
    destruct wp, wh; cbn; repeat split; try congruence; auto using typed_reset, holds_reset. }
  clearbody g1. destruct Q as (Q1 & Q2 & Q3 & Q4 & Q5 & Q6 & Q7 & Q8 & Q9 & Q10).
  rewrite Q1, Q2, Q3, Q4, Q5 in GG. cbn [negb] in GG. rewrite !andb_true_r in GG.
  assert (TY : typed (g_p g2) ty /\ typed (g_h g2) ty /\ (wa = true -> holds (g_a g2) ty (B ++ p)) /\
      g_want_a g2 = wa /\ g_want_p g2 = wp /\ g_want_h g2 = wh /\ g_bad_p g2 = false /\ g_bad_h g2 = false).
  { rewrite GG. cbn [g_p g_h g_a g_want_a g_want_p g_want_h g_bad_p g_bad_h]. split; [|split; [|split; [|auto 8]]].
    - match goal with |- typed (if ?c then _ else _) _ => destruct c; [apply typed_write|]; exact Q7 end.
    - match goal with |- typed (if ?c then _ else _) _ => destruct c; [apply typed_write|]; exact Q8 end.
    - intros E. rewrite E, Q6. apply holds_write, G5, E. }
  destruct TY as (T1 & T2 & T3 & T4).
  assert (FI : e_state e2 <> E_EOF /\ match e_state e2 with
    | E_ENTRY => exists n up, e_nodes e2 = n :: up /\ fetched g2 (B ++ p) (en_file n) []
    | E_IN_PAYLOAD => exists n up, e_nodes e2 = n :: up /\
        (e_naked e2 = true \/ e_naked e2 = false /\ shall_enumerate (en_file n) = true /\ fetched g2 (B ++ p) (en_file n) (takeN (e_poff e2 + len (e_buf e2)) (f_data (en_file n))))
    | E_GOODBYE => exists n up, e_nodes e2 = n :: up /\ S_ISDIR (f_mode (en_file n)) = true
    | _ => True
    end).
  { destruct x; try discriminate.
    - destruct SH as (S1 & S2). destruct (e_nodes e1) as [|nd up] eqn:Nd.
      { unfold encoder_get_data in GD. rewrite B1, Nd in GD. discriminate. }
      destruct (entry_fetch _ _ _ _ _ _ S1 B1 S2 Nd GD) as (c' & C & E2). rewrite E2. cbn [ewith e_state e_nodes]. rewrite S1. split; [discriminate|].
      exists nd, up. split; [exact Nd|]. exists B, p, (e_cache e1), c'. rewrite app_nil_r. split; [reflexivity|]. split; [split; [exact C|]; exists e1, nd, up; split; [exact (SI_step _ _ _ G7 ES)|auto]|].
      rewrite GG, S1. cbn [g_p g_h]. rewrite !andb_true_r, andb_false_r. destruct (Q9 eq_refl) as [Q9a Q9b]. split; [exact Q9a|].
      intros E. rewrite E. apply (holds_write _ _ []), Q9b, E.
    - destruct SH as (S1 & nd & up & S2 & S3). destruct (other_fetch _ _ _ _ S1 B1 GD) as [E1 E2]. rewrite E1, E2.
      destruct S1 as [S1 | S1]; rewrite S1; (split; [discriminate|]); [exact I|eauto].
    - destruct SH as (S1 & S2 & S3). specialize (Q10 ltac:(discriminate)). subst g1.
      assert (NN : exists nd up, e_nodes e = nd :: up). { destruct G1 as [_ G1]. destruct (e_nodes e); [contradiction|]. eauto. }
      destruct NN as (nd & up & Nd). destruct (payload_fetch e1 nd up n p e2 S1 B1) as [P E2]; [congruence|exact GD|]. rewrite E2. cbn [ewith e_state e_nodes e_poff e_buf].
      rewrite S1. split; [discriminate|]. rewrite S2. exists nd, up. split; [exact Nd|].
      assert (NK : e_naked (ewith e1 p (e_cache e1)) = e_naked e). { unfold e_naked, ewith. cbn [e_nodes]. rewrite S2. reflexivity. }
      rewrite NK. destruct (e_naked e) eqn:K; [left; reflexivity|right; split; [reflexivity|]].
      assert (OLD : shall_enumerate (en_file nd) = true /\ fetched g B (en_file nd) (takeN (e_poff e1) (f_data (en_file nd)))).
      { destruct S3 as [(S3 & S4 & n2 & up2 & S5 & S6) | [(S3 & S4) | (S3 & S4)]].
        - rewrite S3 in G6. destruct G6 as (n3 & up3 & G6a & G6b). rewrite Nd in S5, G6a. injection S5 as <- <-. injection G6a as <- <-.
          split; [exact S6|]. rewrite S4, takeN_0. exact G6b.
        - congruence.
        - rewrite S3 in G6. destruct G6 as (n3 & up3 & G6a & [G6b | (G6b & G6c & G6d)]); [congruence|]. rewrite Nd in G6a. injection G6a as <- <-.
          rewrite S4. auto. }
      destruct OLD as [O1 (pre & ent & c & c' & O2 & O3 & O4 & O5)]. split; [exact O1|].
      assert (PP : takeN (e_poff e1 + len p) (f_data (en_file nd)) = takeN (e_poff e1) (f_data (en_file nd)) ++ p).
      { rewrite P at 2. rewrite <- (takeN_split' (e_poff e1) (e_poff e1 + len p)) by lia. repeat f_equal. lia. }
      rewrite PP. exists pre, ent, c, c'. split; [rewrite O2, <- !app_assoc; reflexivity|]. split; [exact O3|].
      rewrite GG, S1. cbn [g_p g_h]. rewrite !andb_true_r. split; intros E; rewrite E; [|rewrite app_assoc]; apply holds_write; auto. }
  destruct FI as [FI1 FI2]. split; [|exact FI1]. apply mkGE; auto. exact (SI_get _ _ _ _ (SI_step _ _ _ G7 ES) GD).
Qed.

Lemma elink_more B f vh b : elink_ok B f vh -> elink_ok (B ++ b) f vh.
Proof.
  intros L v E. specialize (L v E). destruct (negb wh); [exact L|]. destruct (S_ISDIR (f_mode f)); [exact L|].
  destruct L as (pre & ent & post & c & c' & L1 & L2 & L3). exists pre, ent, (post ++ b), c, c'. rewrite L1, <- !app_assoc. auto.
Qed.

Lemma epayload_asked e g n up vp s2 : e_state e = E_FINALIZE -> e_nodes e = n :: up -> g_want_p g = wp -> g_bad_p g = false ->
  typed (g_p g) ty ->
  (wp = true -> (S_ISREG (f_mode (en_file n)) || S_ISBLK (f_mode (en_file n)))%bool = true -> holds (g_p g) ty (contents (en_file n))) ->
  asks (ge_payload H ev) (e, g) vp s2 ->
  epay_ok (en_file n) vp /\ exists g2, s2 = (e, g2) /\ typed (g_p g2) ty /\
    g_a g2 = g_a g /\ g_h g2 = g_h g /\ g_want_a g2 = g_want_a g /\ g_want_p g2 = wp /\ g_want_h g2 = g_want_h g /\ g_bad_p g2 = false /\ g_bad_h g2 = g_bad_h g.
Proof.
  intros S Nd W Bd T Ho A.
  assert (E : ge_payload H ev (e, g) =
    if negb wp then Err ENOMEDIUM
    else if negb (S_ISREG (f_mode (en_file n)) || S_ISBLK (f_mode (en_file n)))%bool then Err ENOTTY
    else Ok (H ty (contents (en_file n)), (e, set_p g false (Some (mkDigest ty None))))).
  { unfold ge_payload. rewrite W, S, Bd, Nd. destruct wp; [|reflexivity]. cbn [negb]. rewrite negb_orb.
    destruct (_ && _)%bool eqn:K; [reflexivity|]. rewrite (holds_read H _ ty (contents (en_file n))); [reflexivity|]. apply Ho; [reflexivity|].
    rewrite <- negb_orb in K. apply negb_false_iff in K. exact K. }
  unfold epay_ok. destruct (negb wp) eqn:Ew; [|destruct (S_ISREG (f_mode (en_file n)) || S_ISBLK (f_mode (en_file n)))%bool; cbn [negb] in E];
    inversion A; subst; try congruence; (split; [intros v0 Z; try discriminate Z; injection Z as <-; congruence|]);
    try (exists g; repeat split; auto; fail).
  match goal with Q : ge_payload _ _ _ = Ok (_, s2) |- _ => rewrite E in Q; injection Q as <- <- end.
  exists (set_p g false (Some (mkDigest ty None))). split; [reflexivity|]. split; [right; eexists; reflexivity|]. cbn. auto 10.
Qed.

Lemma ehardlink_asked B e g n up vh s2 : e_state e = E_FINALIZE -> e_nodes e = n :: up -> g_want_h g = wh -> g_bad_h g = false ->
  typed (g_h g) ty ->
  (S_ISDIR (f_mode (en_file n)) = false -> readable (en_file n) /\ exists pre ent c c', B = pre ++ ent ++ contents (en_file n) /\ gave c (en_file n) ent c' /\
      (wh = true -> holds (g_h g) ty (ent ++ contents (en_file n)))) ->
  asks (ge_hardlink H ev) (e, g) vh s2 ->
  elink_ok B (en_file n) vh /\ exists g2, s2 = (e, g2) /\ typed (g_h g2) ty /\
    g_a g2 = g_a g /\ g_p g2 = g_p g /\ g_want_a g2 = g_want_a g /\ g_want_p g2 = g_want_p g /\ g_want_h g2 = wh /\ g_bad_p g2 = g_bad_p g /\ g_bad_h g2 = false.
Proof.
  intros S Nd W Bd T Ho A.
  assert (E : ge_hardlink H ev (e, g) =
    if negb wh then Err ENOMEDIUM
    else if S_ISDIR (f_mode (en_file n)) then Err EISDIR
    else let! (v, c) := digest_read H (digest_allocated (g_h g) ty) in Ok (v, (e, set_h g false (Some c)))).
  { unfold ge_hardlink. rewrite W, S, Bd, Nd. destruct wh; reflexivity. }
  unfold elink_ok. destruct wh eqn:Ew; cbn [negb] in *.
  2:{ inversion A; subst; try congruence; (split; [intros v0 Z; try discriminate Z; injection Z as <-; congruence|]);
      exists g; repeat split; auto. }
  destruct (S_ISDIR (f_mode (en_file n))).
  { inversion A; subst; try congruence; (split; [intros v0 Z; try discriminate Z; injection Z as <-; congruence|]);
      exists g; repeat split; auto. }
  destruct (Ho eq_refl) as (HR & pre & ent & c & c' & H1 & H2 & H3). rewrite (holds_read H _ ty _ (H3 eq_refl)) in E. cbn [bind] in E.
  inversion A; subst; try congruence.
  - split; [discriminate|]. exists g. repeat split; auto.
  - match goal with Q : ge_hardlink _ _ _ = Ok (_, s2) |- _ => rewrite E in Q; injection Q as <- <- end.
    split. { intros v0 Z. injection Z as <-. exists pre, ent, [], c, c'. rewrite app_nil_r. auto. }
    exists (set_h g false (Some (mkDigest ty None))). split; [reflexivity|]. split; [right; eexists; reflexivity|]. cbn. auto 10.
Qed.

Lemma GE_done e g B s1 vp s2 vh s3 : GE e g B -> e_state e <> E_EOF -> ge_step ev (e, g) = Ok (ER_DONE_FILE, s1) ->
  asks (ge_payload H ev) s1 vp s2 -> asks (ge_hardlink H ev) s2 vh s3 ->
  Forall (ereport B) (map (fun f => EDone f vp vh) (file_now s1)) /\ GE (fst s3) (snd s3) B /\ e_state (fst s3) <> E_EOF.
Proof.
  intros [G1 G7 G2 G3 G4 G5 G6] NE ST AP AH. unfold ge_step in ST. cbn [fst snd] in ST.
  destruct (encoder_step ev e) as [[x' e1]| | |] eqn:ES; try discriminate. cbn [bind] in ST. injection ST as -> <-.
  pose proof (e_shape ev _ _ _ G1 NE ES) as [B1 (S1 & S2 & n & up & S3 & S4)].
  pose proof (step_ok ev e G1 NE) as SO. rewrite ES in SO. destruct SO as (J1 & _).
  destruct G2 as (W1 & W2 & W3 & W4 & W5).
  assert (K : S_ISDIR (f_mode (en_file n)) = true \/ S_ISDIR (f_mode (en_file n)) = false /\ readable (en_file n) /\ fetched g B (en_file n) (contents (en_file n))).
  { destruct S4 as [(Q1 & Q2 & Q3) | [(Q1 & Q2 & Q3) | Q1]]; rewrite Q1 in G6.
    - destruct G6 as (n2 & up2 & E1 & E2). rewrite S3 in E1. injection E1 as <- <-. right. split; [exact Q2|]. split.
      { intros R V. rewrite Q3; [apply N.le_0_l|exact R|]. rewrite (shall_not_virtual _ R), V. reflexivity. }
      replace (contents (en_file n)) with (@nil N); [exact E2|]. unfold contents. destruct (S_ISREG (f_mode (en_file n))) eqn:R; [|reflexivity].
      rewrite (shall_not_virtual _ R) in Q3. destruct (fs_virtual (f_stat (en_file n))); [reflexivity|]. rewrite Q3, takeN_0; reflexivity.
    - destruct G6 as (n2 & up2 & E1 & [E2 | (E2 & E3 & E4)]); [congruence|]. rewrite S3 in E1. injection E1 as <- <-.
      assert (R : S_ISREG (f_mode (en_file n)) = true /\ e_poff e + len (e_buf e) <= f_size (en_file n) /\ e_poff e + len (e_buf e) <= len (f_data (en_file n))).
      { destruct G1 as [_ G1]. rewrite S3, Q1 in G1. tauto. }
      destruct R as (R & R2 & R3). right. split; [apply reg_dir_excl, R|]. split; [intros _ _; clear -Q2 R3; lia|].
      replace (contents (en_file n)) with (takeN (e_poff e + len (e_buf e)) (f_data (en_file n))); [exact E4|].
      unfold contents. rewrite R. rewrite (shall_not_virtual _ R) in E3. destruct (fs_virtual (f_stat (en_file n))); [discriminate|]. f_equal. clear -R2 Q2. lia.
    - destruct G6 as (n2 & up2 & E1 & E2). rewrite S3 in E1. injection E1 as <- <-. left. exact E2. }
  assert (RD : (S_ISREG (f_mode (en_file n)) || S_ISBLK (f_mode (en_file n)))%bool = true -> S_ISDIR (f_mode (en_file n)) = false).
  { unfold S_ISREG, S_ISBLK, S_ISDIR, is_type. intros Q. apply orb_true_iff in Q. destruct Q as [Q | Q]; apply N.eqb_eq in Q; rewrite Q; reflexivity. }
  assert (N1 : e_nodes e1 = n :: up) by congruence.
  apply (epayload_asked e1 g n up) in AP; auto.
  2:{ intros Q1 Q2. destruct K as [K | (K & KR & pre & ent & c & c' & K1 & K2 & K3 & K4)]; [|auto]. rewrite (RD Q2) in K. discriminate. }
  destruct AP as (PO & g2 & -> & T2 & X1 & X2 & X3 & X4 & X5 & X6 & X7).
  apply (ehardlink_asked B e1 g2 n up) in AH; auto; try congruence; try (rewrite X2; assumption).
  2:{ intros Q. destruct K as [K | (K & KR & pre & ent & c & c' & K1 & K2 & K3 & K4)]; [congruence|]. split; [exact KR|]. exists pre, ent, c, c'. rewrite X2. auto. }
  destruct AH as (HO & g3 & -> & T3 & Y1 & Y2 & Y3 & Y4 & Y5 & Y6 & Y7).
  split; [|split; [|cbn [fst]; congruence]].
  - unfold file_now. cbn [fst]. rewrite N1. constructor; [|constructor]. split; assumption.
  - cbn [fst snd]. apply mkGE.
    + exact J1.
    + exact (SI_step _ _ _ G7 ES).
    + repeat split; congruence.
    + rewrite Y2. exact T2.
    + exact T3.
    + rewrite Y1, X1. exact G5.
    + rewrite S1. exact I.
Qed.

Lemma gerun_reports s b o r : gerun H ev s b o r -> forall B, GE (fst s) (snd s) B -> e_state (fst s) <> E_EOF ->
  Forall (ereport (B ++ b)) o /\
  match r with
  | GEFinished v => forall v0, v = Some v0 -> v0 = if negb wa then Err ENOMEDIUM else Ok (H ty (B ++ b))
  | GEStopped => True
  end.
Proof.
  induction 1 as [s s1 v s2 ST AA | s | s s1 vp s2 vh s3 b o r ST AP AH R IH | s x s1 p s2 b o r ST HD F R IH | s x s1 n s2 b o r ST HD G R IH];
    intros B GI NE; rewrite ?app_nil_r.
  - split; [constructor|]. destruct s as [e g]. destruct GI as [G1 G7 (W1 & _) G3 G4 G5 G6]. cbn [fst snd] in *.
    unfold ge_step in ST. cbn [fst snd] in ST. destruct (encoder_step ev e) as [[x' e1]| | |] eqn:ES; try discriminate. cbn [bind] in ST. injection ST as -> <-.
    pose proof (e_shape ev _ _ _ G1 NE ES) as [_ S1]. intros v0 ->.
    assert (E : ge_archive H ev (e1, g) = if negb wa then Err ENOMEDIUM
      else let! (v, c) := digest_read H (digest_allocated (g_a g) ty) in Ok (v, (e1, set_a g (Some c)))).
    { unfold ge_archive. rewrite W1, S1. reflexivity. }
    destruct wa eqn:Ew; cbn [negb] in *; [rewrite (holds_read H _ ty _ (G5 eq_refl)) in E; cbn [bind] in E|]; inversion AA; subst; congruence.
  - split; [constructor|exact I].
  - destruct s as [e g]. cbn [fst snd] in *. destruct (GE_done _ _ _ _ _ _ _ _ GI NE ST AP AH) as (A1 & A2 & A3).
    destruct (IH B A2 A3) as [A4 A5]. split; [|exact A5]. apply Forall_app. split; [|exact A4].
    eapply Forall_impl; [|exact A1]. intros [f vp2 vh2] [Q1 Q2]. split; [exact Q1|apply elink_more, Q2].
  - destruct s as [e g]. cbn [fst snd] in *. destruct (GE_data _ _ _ _ _ _ _ GI NE ST HD F) as [A1 A2].
    destruct (IH (B ++ p) A1 A2) as [A3 A4]. rewrite <- app_assoc in *. auto.
  - exfalso. destruct s as [e g]. cbn [fst snd] in *. destruct GI as [G1 _ _ _ _ _ _]. pose proof (step_ok ev e G1 NE) as SO.
    unfold ge_step in ST. cbn [fst snd] in ST. destruct (encoder_step ev e) as [[x' e1]| | |] eqn:ES; try discriminate. cbn [bind] in ST. injection ST as -> <-.
    unfold ge_get_data in G. destruct (encoder_get_data ev e1 n) as [[o1 e2]| | |] eqn:GD; try discriminate. cbn [bind] in G.
    assert (o1 = None). { destruct (0 <? len (e_buf e1)); [|destruct o1; [discriminate|reflexivity]]. injection G as -> _. reflexivity. } subst o1.
    apply none_any in GD. destruct x; try discriminate; specialize (SO 1 eq_refl); rewrite GD in SO; exact SO.
Qed.

Lemma GE_new f e : encoder_new f = Ok e -> SI e -> GE e (digs_new wa wp wh) [] /\ e_state e <> E_EOF.
Proof.
  intros E HS. destruct (J_new ev f e E) as (A & B & _). split; [|exact B]. unfold encoder_new in E. destruct (_ && _)%bool; [discriminate|]. injection E as <-.
  apply mkGE; [exact A|exact HS|repeat split|left; reflexivity|left; reflexivity|left; auto|exact I].
Qed.
End Enc.
