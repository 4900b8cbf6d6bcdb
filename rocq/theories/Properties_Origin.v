(** C30: origins account for each byte exactly once. *)
From Verif Require Import Base Locator ParseSize Number Location LocationSpec LocationHeap LocationHeapProofs Origin OriginSpec OriginProofs1 OriginProofs2 OriginProofs3.
Local Open Scope N_scope.

(** For every history of operations on locations and origins, with any sharing of locations: the code gives the answers the lists of
    sources give; afterwards every location has the value it has there, every origin's locations describe, in order, exactly the
    bytes of the origin's list, and its byte count is the length; nothing is used after it was freed, no assertion fails, and
    what is not referred to any more is freed. *)
Theorem origins_account ops w answers : steps (mkWorld [] []) ops w answers ->
  exists c, run (mkClient [] [] []) ops = Some (c, answers) /\ shows c w /\ no_leak c.
Proof.
  intros S. destruct (simulate ops (mkClient [] [] []) (mkWorld [] []) w answers) as (c & E & R); [|exact S|].
  - constructor; cbn [mem ptrs orgs locs origs]; [|constructor|constructor]. intros p. destruct p; reflexivity.
  - exists c. split; [exact E|]. exact (rel_shows c w R).
Qed.
Print Assumptions origins_account.

(** From the middle of a history on: the same. *)
Theorem origins_account_prefix ops1 ops2 w answers : steps (mkWorld [] []) (ops1 ++ ops2) w answers ->
  exists c1 w1 a1 c2 a2, run (mkClient [] [] []) ops1 = Some (c1, a1) /\ shows c1 w1 /\ run c1 ops2 = Some (c2, a2) /\ shows c2 w /\ answers = a1 ++ a2.
Proof.
  assert (Split : forall o1 w0 o2 w2 an, steps w0 (o1 ++ o2) w2 an -> exists w1 a1 a2, steps w0 o1 w1 a1 /\ steps w1 o2 w2 a2 /\ an = a1 ++ a2).
  { induction o1 as [|x o1 IH]; intros w0 o2 w2 an S.
    - exists w0, [], an. split; [constructor|]. split; [exact S|reflexivity].
    - inversion S as [|? ? ? wa a ? ans S1 S2]; subst. destruct (IH wa o2 w2 ans S2) as (w1 & a1 & a2 & X & Y & ->).
      exists w1, (a :: a1), a2. split; [econstructor; eassumption|]. split; [exact Y|reflexivity]. }
  intros S. destruct (Split _ _ _ _ _ S) as (w1 & a1 & a2 & S1 & S2 & ->).
  assert (R0 : rel (mkClient [] [] []) (mkWorld [] [])) by (constructor; cbn [mem ptrs orgs locs origs]; [intros p; destruct p; reflexivity|constructor|constructor]).
  destruct (simulate _ _ _ _ _ R0 S1) as (c1 & E1 & R1). destruct (simulate _ _ _ _ _ R1 S2) as (c2 & E2 & R2).
  exists c1, w1, a1, c2, a2. split; [exact E1|]. split; [apply (rel_shows _ _ R1)|]. split; [exact E2|]. split; [apply (rel_shows _ _ R2)|reflexivity].
Qed.
Print Assumptions origins_account_prefix.

(** * A case: a file "f", put in two parts that are merged; appended to itself; the middle extracted; a hole; the front dropped. *)
Definition part (o s : N) : loc := mkLoc 112 (Some [102]) o s None 7 8 0%Z false UINT64_MAX UINT64_MAX [].
Definition story : list op :=
  [ Make (part 10 4); Make (part 14 2); ONew; OPut 0 0; OPut 0 1; OPutVoid 0 3; OConcat 0 0 UINT64_MAX; Advance 0 1; OExtract 0 7; OAdvance 0 11; OBytes 0; OBytes 1; Drop 0; Show 1 1 ].
Definition f (n : N) : source := At (None, Some [102], 112, Some (7, 8, None)) n.
Definition after : world :=
  mkWorld [None; Some (part 14 2)]
          [Some [f 12; f 13; f 14; f 15; Void; Void; Void]; Some [f 10; f 11; f 12; f 13; f 14; f 15; Void]].
Definition story_answers : list answer :=
  [ Done; Done; Done; Code (Ok 0); Code (Ok 0); Code (Ok 0); Code (Ok 1); Code (Ok 1); Code (Ok 0); Code (Ok 0); Code (Ok 7); Code (Ok 7); Done; Text [102; 43; 112; 49; 52; 58; 50] ].
Lemma part_proper o s : o + s < UINT64_MAX -> s <> 0 -> proper (part o s).
Proof.
  intros H S. constructor; cbn.
  - unfold kind. lia.
  - intros p E. injection E as <-. split; [discriminate|]. intros q. discriminate.
  - discriminate.
  - lia.
  - split; [exact S|right; lia].
Qed.
Lemma step_as w o w1 a w1' a' : step w o w1 a -> w1 = w1' -> a = a' -> step w o w1' a'.
Proof. intros S -> ->. exact S. Qed.
Tactic Notation "next" tactic3(T) := eapply steps_cons; [eapply step_as; [T|vm_compute; reflexivity|vm_compute; reflexivity]|].
Example story_steps : steps (mkWorld [] []) story after story_answers.
Proof.
  assert (U : UINT64_MAX = 18446744073709551615) by reflexivity.
  unfold story, story_answers.
  next (apply s_make; apply part_proper; rewrite ?U; lia).
  next (apply s_make; apply part_proper; rewrite ?U; lia).
  next (apply s_onew).
  next (eapply s_oput; [reflexivity|reflexivity| |]; vm_compute; reflexivity).
  next (eapply s_oput; [reflexivity|reflexivity| |]; vm_compute; reflexivity).
  next (eapply s_ovoid; [reflexivity|]; vm_compute; reflexivity).
  next (refine (s_oconcat_all _ 0 0 _ _ _ _ _); [reflexivity|reflexivity|vm_compute; reflexivity]).
  next (eapply s_advance; [reflexivity|discriminate| | |]; [apply (part_proper 11 3); rewrite ?U; lia|vm_compute; discriminate|right; reflexivity]).
  next (eapply s_oextract; [reflexivity|discriminate|left; vm_compute; discriminate]).
  next (eapply s_oadvance; [reflexivity|vm_compute; discriminate]).
  next (refine (s_obytes _ 0 _ _); reflexivity).
  next (refine (s_obytes _ 1 _ _); reflexivity).
  next (eapply s_drop; reflexivity).
  next (refine (s_show _ 1 _ _ _); reflexivity).
  vm_compute. constructor.
Qed.
Example story_runs : exists c, run (mkClient [] [] []) story = Some (c, story_answers) /\ shows c after /\ no_leak c.
Proof. apply origins_account, story_steps. Qed.

(** * What does not hold *)
(** Locations of more than 2^64 bytes altogether: the count wraps around, and the code accepts it. *)
Theorem origin_count_wraps_refuted : exists c a b,
  run (mkClient [] [] []) [Make (part 0 18446744073709551614); Make (part 100 8); ONew; OPut 0 0; OPut 0 1; OBytes 0] = Some (c, [Done; Done; Done; a; b; Code (Ok 6)]).
Proof. do 3 eexists. vm_compute. reflexivity. Qed.
Print Assumptions origin_count_wraps_refuted.

(** A location advanced to its end is put as an item of no bytes; advancing over it then fails an assertion. *)
Theorem origin_empty_item_refuted : exists c answers,
  run (mkClient [] [] []) [Make (part 0 5); Make (part 100 5); ONew; Advance 0 5; OPut 0 1; OPut 0 0] = Some (c, answers)
  /\ match lget (orgs c) 0%nat with Some o => advance_items o 1%nat (mem c) = None /\ n_bytes o = 5 /\ len (items o) = 2 | None => False end.
Proof. do 2 eexists. split; [vm_compute; reflexivity|]. vm_compute. repeat split. Qed.
Print Assumptions origin_empty_item_refuted.
