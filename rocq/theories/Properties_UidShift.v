(** C32: UID shifting. *)
From Verif Require Import Base FeatureFlags ArchiveBase Encoder UidShift.
Local Open Scope N_scope.

(** ** Specification. A usable id is any 32 bit number but the two that are reserved. *)
Definition usable (u : N) : Prop := u < two32 /\ u <> 65535 /\ u <> 4294967295.
(** Folding into a range; range 0 means no folding. *)
Definition folds (range x y : N) : Prop := (range = 0 /\ y = x) \/ (0 < range /\ y < range /\ exists k, x = y + range * k).

Lemma valid_iff u : u < two32 -> uid_is_valid u = true <-> usable u.
Proof.
  unfold uid_is_valid, usable, UINT32_MAX, UINT16_MAX, two32. intros H. rewrite andb_true_iff, !negb_true_iff, !N.eqb_neq. lia.
Qed.
Lemma folds_iff range x y : folds range x y <-> y = if range =? 0 then x else x mod range.
Proof.
  unfold folds. destruct (N.eqb_spec range 0) as [-> | H].
  - split; [intros [[_ E] | [L _]]; [exact E|lia]|auto].
  - split.
    + intros [[E _] | (_ & L & k & ->)]; [contradiction|]. rewrite N.mul_comm, N.mod_add, N.mod_small; auto.
    + intros ->. right. split; [lia|]. split; [apply N.mod_lt, H|]. exists (x / range). rewrite N.add_comm. apply N.div_mod, H.
Qed.
Lemma folds_le range x y : folds range x y -> y <= x.
Proof. intros [[_ ->] | (_ & _ & k & ->)]; lia. Qed.

(** What is written. *)
Lemma entry_ids_iff ev s u g : has (ev_ff ev) UIDS = true -> st_uid s < two32 -> st_gid s < two32 ->
  entry_ids ev s = Ok (u, g) -> forall x i, (x = u /\ i = st_uid s) \/ (x = g /\ i = st_gid s) ->
  usable i /\ usable x /\ ev_shift ev <= i /\ folds (ev_range ev) (i - ev_shift ev) x.
Proof.
  intros U L1 L2 H x i Hx. unfold entry_ids in H. rewrite U in H.
  destruct (negb (uid_is_valid (shift_uid ev (st_uid s)))) eqn:V1; [discriminate|]. apply negb_false_iff in V1.
  destruct (negb (uid_is_valid (shift_uid ev (st_gid s)))) eqn:V2; [discriminate|]. apply negb_false_iff in V2.
  destruct (_ && _)%bool; [discriminate|]. injection H as <- <-.
  assert (K : forall j, j < two32 -> uid_is_valid (shift_uid ev j) = true ->
    usable j /\ usable (shift_uid ev j) /\ ev_shift ev <= j /\ folds (ev_range ev) (j - ev_shift ev) (shift_uid ev j)).
  { clear. intros j L V. revert V. unfold shift_uid. destruct (uid_is_valid j) eqn:E; cbn [negb]; [|discriminate].
    destruct (N.ltb_spec j (ev_shift ev)) as [A | A]; [discriminate|]. cbv zeta. set (r := j - ev_shift ev). intros V.
    assert (F : folds (ev_range ev) r (if negb (ev_range ev =? 0) then r mod ev_range ev else r)).
    { apply folds_iff. destruct (ev_range ev =? 0); reflexivity. }
    pose proof (folds_le _ _ _ F) as Le.
    split; [apply valid_iff; assumption|]. split; [apply valid_iff; [subst r; lia|exact V]|]. auto. }
  destruct Hx as [[-> ->] | [-> ->]]; apply K; assumption.
Qed.

(** What is extracted. *)
Lemma extract_iff shift range id u : id < two32 -> shift < two32 ->
  (extract_id shift range id = Ok u <-> usable id /\ usable u /\ exists y, folds range id y /\ u = shift + y).
Proof.
  intros L S. unfold extract_id, decoder_shift_uid. rewrite (N.mod_small id) by exact L.
  destruct (uid_is_valid id) eqn:V; cbn [negb].
  2:{ split; [discriminate|]. intros (A & _). apply valid_iff in A; [congruence|exact L]. }
  apply valid_iff in V; [|exact L]. set (y := if negb (range =? 0) then id mod range else id).
  assert (F : folds range id y) by (apply folds_iff; subst y; destruct (range =? 0); reflexivity).
  pose proof (folds_le _ _ _ F) as Le. 
  assert (Uq : forall y', folds range id y' -> y' = y) by (intros y' F'; apply folds_iff in F, F'; congruence).
  unfold two32 in *. cbv zeta. destruct (N.ltb_spec ((shift + y) mod 4294967296) shift) as [A | A].
  - change (uid_is_valid UID_INVALID) with false. cbn [negb]. split; [discriminate|]. intros (_ & (B & _) & y' & F' & ->). apply Uq in F'. subst y'.
    unfold two32 in B. rewrite N.mod_small in A by exact B. lia.
  - assert (B : shift + y < 4294967296).
    { destruct (N.lt_ge_cases (shift + y) 4294967296) as [B | B]; [exact B|exfalso].
      replace (shift + y) with (shift + y - 4294967296 + 1 * 4294967296) in A by lia. rewrite N.mod_add, N.mod_small in A by lia. lia. }
    rewrite (N.add_comm y), N.mod_small by exact B. destruct (uid_is_valid (shift + y)) eqn:W; cbn [negb].
    + apply valid_iff in W; [|exact B]. split; [intros [= <-]; eauto 6|]. intros (_ & _ & y' & F' & ->). apply Uq in F'. subst y'. reflexivity.
    + split; [discriminate|]. intros (_ & Z & y' & F' & ->). apply Uq in F'. subst y'. apply valid_iff in Z; [congruence|exact B].
Qed.

(** C32. If the encoder, with any shift and range, writes the entry of a file, then on extraction with the same shift and
    range: an owner that lies in the shifted range is restored exactly; any other is folded into the range (and if there is no
    range, there are no others). *)
Theorem uid_shift_undone :
  forall ev s u g, has (ev_ff ev) (N.lor WITH_16BIT_UIDS WITH_32BIT_UIDS) = true ->
  st_uid s < two32 -> st_gid s < two32 -> ev_shift ev < two32 -> ev_range ev < two32 ->
  entry_ids ev s = Ok (u, g) ->
  forall stored owner, (stored = u /\ owner = st_uid s) \/ (stored = g /\ owner = st_gid s) ->
  ((ev_range ev = 0 \/ owner < ev_shift ev + ev_range ev) -> extract_id (ev_shift ev) (ev_range ev) stored = Ok owner) /\
  (forall r, extract_id (ev_shift ev) (ev_range ev) stored = Ok r ->
     exists y, folds (ev_range ev) (owner - ev_shift ev) y /\ r = ev_shift ev + y).
Proof.
  intros ev s u g U L1 L2 L3 L4 H stored owner Hx.
  destruct (entry_ids_iff ev s u g U L1 L2 H stored owner Hx) as (A & B & C & D).
  assert (I : folds (ev_range ev) stored stored).
  { destruct D as [[-> _] | (P & Q & _)]; [left; auto|right]. split; [exact P|]. split; [exact Q|]. exists 0. lia. }
  split.
  - intros R. apply extract_iff; [apply B|exact L3|]. split; [exact B|]. split; [exact A|]. exists stored. split; [exact I|].
    destruct D as [[_ ->] | (P & Q & k & E)]; [lia|]. assert (k = 0) by nia. subst k. lia.
  - intros r Hr. apply extract_iff in Hr; [|apply B|exact L3]. destruct Hr as (_ & _ & y & F & ->). exists y. split; [|reflexivity].
    apply folds_iff in F. rewrite F. apply folds_iff in I. rewrite <- I. exact D.
Qed.
Print Assumptions uid_shift_undone.

(** C32. Nothing is ever turned into an invalid id silently: what is written and what is extracted is a usable id, and an
    owner is refused exactly if it is reserved, below the shift, or its image is reserved (or too large for 16 bit); an
    id is refused on extraction exactly if it is reserved or its image is reserved or exceeds 32 bit. *)
Theorem uid_shift_never_invalid :
  (forall ev s, has (ev_ff ev) (N.lor WITH_16BIT_UIDS WITH_32BIT_UIDS) = true -> st_uid s < two32 -> st_gid s < two32 ->
   forall u g, entry_ids ev s = Ok (u, g) <->
     (usable (st_uid s) /\ usable u /\ ev_shift ev <= st_uid s /\ folds (ev_range ev) (st_uid s - ev_shift ev) u) /\
     (usable (st_gid s) /\ usable g /\ ev_shift ev <= st_gid s /\ folds (ev_range ev) (st_gid s - ev_shift ev) g) /\
     (has (ev_ff ev) WITH_16BIT_UIDS = true -> u < two16 /\ g < two16)) /\
  (forall shift range id, id < two32 -> shift < two32 -> forall u,
     extract_id shift range id = Ok u <-> usable id /\ usable u /\ exists y, folds range id y /\ u = shift + y).
Proof.
  split; [|intros; apply extract_iff; assumption]. intros ev s U L1 L2 u g. split.
  - intros H. split; [apply (entry_ids_iff ev s u g U L1 L2 H u (st_uid s)); auto|].
    split; [apply (entry_ids_iff ev s u g U L1 L2 H g (st_gid s)); auto|].
    intros W. unfold entry_ids in H. change (N.lor WITH_16BIT_UIDS WITH_32BIT_UIDS) with UIDS in U. rewrite U, W in H.
    destruct (negb _); [discriminate|]. destruct (negb _); [discriminate|]. cbn [andb] in H.
    destruct (orb _ _) eqn:O; [discriminate|]. apply orb_false_iff in O. destruct O as [O1 O2]. apply N.ltb_ge in O1, O2.
    injection H as <- <-. unfold two16, UINT16_MAX in *. lia.
  - intros ((A1 & A2 & A3 & A4) & (B1 & B2 & B3 & B4) & W). unfold entry_ids. change (N.lor WITH_16BIT_UIDS WITH_32BIT_UIDS) with UIDS in U. rewrite U.
    assert (K : forall i x, usable i -> usable x -> ev_shift ev <= i -> folds (ev_range ev) (i - ev_shift ev) x -> shift_uid ev i = x).
    { intros i x P Q R F. unfold shift_uid. rewrite (proj2 (valid_iff i ltac:(apply P)) P). cbn [negb].
      destruct (N.ltb_spec i (ev_shift ev)); [lia|]. apply folds_iff in F. rewrite F. destruct (ev_range ev =? 0); reflexivity. }
    rewrite (K _ _ A1 A2 A3 A4), (K _ _ B1 B2 B3 B4). rewrite (proj2 (valid_iff u ltac:(apply A2)) A2), (proj2 (valid_iff g ltac:(apply B2)) B2). cbn [negb].
    destruct (has (ev_ff ev) WITH_16BIT_UIDS) eqn:E; [|reflexivity]. destruct (W eq_refl) as [W1 W2]. unfold two16, UINT16_MAX in *.
    destruct (N.ltb_spec 65535 u) as [Z | Z]; [lia|]. destruct (N.ltb_spec 65535 g) as [Z' | Z']; [lia|]. reflexivity.
Qed.
Print Assumptions uid_shift_never_invalid.

(** Non-trivial cases: an owner within the range, one that is folded, and one that is refused. *)
Definition c32_env (shift range : N) : eenv :=
  mkEenv WITH_32BIT_UIDS 1 shift range (fun _ => None) (fun _ => None) (fun _ => 0) (fun _ _ _ => false) (fun _ _ l => l).
Definition c32_stat (u g : N) : fstat := mkFstat 0x81A4 u g 0 0 false None 0 0 false false None [] [] [] 0.
Example c32_case : entry_ids (c32_env 100000 65535) (c32_stat 101000 100000) = Ok (1000, 0) /\
  extract_id 100000 65535 1000 = Ok 101000 /\
  entry_ids (c32_env 100000 65535) (c32_stat 170000 100000) = Ok (4465, 0) /\ extract_id 100000 65535 4465 = Ok 104465 /\
  entry_ids (c32_env 100000 65535) (c32_stat 1000 100000) = Err EINVAL /\
  entry_ids (c32_env 100000 0) (c32_stat 165535 100000) = Err EINVAL /\
  extract_id 4294967290 0 10 = Err EINVAL.
Proof. vm_compute. repeat split. Qed.
