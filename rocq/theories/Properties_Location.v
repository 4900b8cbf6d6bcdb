(** C29: locations round trip as text. *)
From Verif Require Import Base Locator ParseSize Number Properties_Locator NumberProofs Location LocationSpec LocationProofs1 LocationProofs2 LocationHeap LocationHeapProofs.
From Coq Require Import String Ascii.
Local Open Scope N_scope.

(** For every location the constructor can make, with all fields it can be given later, and every choice of parts: the text can be
    parsed, the result says what was asked for and nothing else, and ca_location_equal() calls it equal in these parts. *)
Theorem location_text_round_trip l w : proper l -> typed l ->
  location_parse (location_format l w) = Ok (kept w l) /\ location_equal l (kept w l) w = true /\ agree w l (kept w l).
Proof. intros P T. split; [apply location_round_trip; assumption|]. split; [apply location_equal_iff|]; apply kept_agree. Qed.
Print Assumptions location_text_round_trip.

Lemma Ok_same {A} (a b : A) : Ok a = Ok b -> a = b.
Proof. intros H. injection H as ->. reflexivity. Qed.

(** Two locations have the same text with some parts only if they agree in these parts. *)
Theorem location_text_tells l l' w : proper l -> typed l -> proper l' -> typed l' -> location_format l w = location_format l' w -> agree w l l'.
Proof.
  intros P T P' T' E. apply location_equal_iff.
  assert (K : kept w l = kept w l'). { apply Ok_same. rewrite <- !location_round_trip by assumption. rewrite E. reflexivity. }
  pose proof (kept_agree l w) as A. pose proof (kept_agree l' w) as B. rewrite <- K in B.
  apply location_equal_iff. unfold agree in *. destruct A as (A1 & A2 & A3 & A4 & A5 & A6 & A7), B as (B1 & B2 & B3 & B4 & B5 & B6 & B7).
  split; [congruence|]. split; [congruence|]. split; [congruence|]. split; [intros H; rewrite A4, B4 by exact H; reflexivity|]. split.
  - intros H. destruct (A5 H) as [A8 A9], (B5 H) as [B8 B9]. split; [congruence|]. intros X. destruct A9 as (A9 & A10 & A11); [exact X|].
    destruct B9 as (B9 & B10 & B11); [congruence|]. split; [congruence|]. split; [congruence|]. intros V. rewrite A11 by exact V. rewrite B11; congruence.
  - split; intros H; [rewrite A6, B6 by exact H|rewrite A7, B7 by exact H]; reflexivity.
Qed.
Print Assumptions location_text_tells.

(** Whatever the text: parsing fails, or the location is in range, and formatting it with all parts and parsing again gives it. *)
Theorem location_parse_in_range text :
  (exists l, location_parse text = Ok l /\ proper l /\ typed l /\ location_parse (location_format l WITH_ALL) = Ok l) \/ exists e, location_parse text = Err e.
Proof.
  destruct (location_parse_inv text) as [(l & E & P & T & K)|X]; [left|right; exact X]. exists l. split; [exact E|]. split; [exact P|]. split; [exact T|].
  rewrite location_round_trip by assumption. rewrite K. reflexivity.
Qed.
Print Assumptions location_parse_in_range.

(** The comparison function decides agreement. *)
Theorem location_equal_agree a b w : location_equal a b w = true <-> agree w a b.
Proof. apply location_equal_iff. Qed.
Print Assumptions location_equal_agree.

(** The constructor: the arguments it takes, and what it makes of them; nothing else is known of a new location. *)
Theorem location_new_exact p d o s l : u64 o -> u64 s ->
  (location_new p d o s = Ok l <->
   kind d /\ (forall q, p <> Some (47 :: q)) /\ o <> UINT64_MAX /\ s <> 0 /\ (d = 118 -> p = None) /\ (s = UINT64_MAX \/ o + s <= UINT64_MAX)
   /\ l = mkLoc d (if beq (path_text p) [] then None else p) (if d =? 118 then 0 else o) s None UINT64_MAX 0 0%Z false UINT64_MAX UINT64_MAX []).
Proof.
  intros Ho Hs. unfold location_new. change DES_VOID with 118.
  assert (Ov : negb (s =? UINT64_MAX) && ((o + s) mod two64 <? o) = false <-> s = UINT64_MAX \/ o + s <= UINT64_MAX).
  { unfold u64 in *. destruct (N.eqb_spec s UINT64_MAX); cbn [negb andb]; [split; auto|]. rewrite N.ltb_ge. split.
    - intros X. right. destruct (N.le_gt_cases (o + s) UINT64_MAX) as [|Hgt]; [assumption|]. exfalso.
      assert ((o + s) mod two64 = o + s - two64) as Em. { symmetry. apply N.mod_unique with (q := 1); unfold UINT64_MAX, two64 in *; lia. }
      rewrite Em in X. unfold UINT64_MAX, two64 in *. lia.
    - intros [X|X]; [congruence|]. rewrite N.mod_small; [lia|]. unfold UINT64_MAX, two64 in *. lia. }
  assert (Sl : negb (isempty p) && (at_ (strempty p) 0 =? 47) = false <-> forall q, p <> Some (47 :: q)).
  { destruct p as [[|c p]|]; cbn [isempty negb andb strempty]; [split; [discriminate|reflexivity]| |split; [discriminate|reflexivity]].
    change (at_ (c :: p) 0) with c. rewrite N.eqb_neq. split; [intros X q Y; congruence|]. intros X ->. apply (X p). reflexivity. }
  assert (Np : nonempty p = if beq (path_text p) [] then None else p) by (destruct p as [[|c p]|]; reflexivity).
  rewrite <- Np, <- Sl, <- Ov. rewrite <- kind_iff.
  destruct (designator_valid d); cbn [negb]; [|split; [discriminate|intuition congruence]].
  destruct (negb (isempty p) && (at_ (strempty p) 0 =? 47)); [split; [discriminate|intuition congruence]|].
  destruct (N.eqb_spec o UINT64_MAX); [split; [discriminate|intuition congruence]|].
  destruct (N.eqb_spec s 0); [split; [discriminate|intuition congruence]|].
  destruct (N.eqb_spec d 118) as [D|D]; cbn [andb].
  - destruct p as [p|]; [split; [discriminate|intros X; destruct X as (_ & _ & _ & _ & X & _); specialize (X D); discriminate]|].
    destruct (negb (s =? UINT64_MAX) && ((o + s) mod two64 <? o)); [split; [discriminate|intuition congruence]|].
    split; [intros X; injection X as <-; repeat split; auto|intros X; destruct X as (_ & _ & _ & _ & _ & _ & ->); reflexivity].
  - destruct (negb (s =? UINT64_MAX) && ((o + s) mod two64 <? o)); [split; [discriminate|intuition congruence]|].
    split; [intros X; injection X as <-; repeat split; auto; congruence|intros X; destruct X as (_ & _ & _ & _ & _ & _ & ->); reflexivity].
Qed.
Print Assumptions location_new_exact.

(** Name tables, with any chain of parents, round trip as text too. *)
Theorem name_table_text t : t <> [] -> ntable_ok t -> name_table_parse (name_table_format t) = Ok (t, []).
Proof. apply name_table_round_trip. Qed.
Print Assumptions name_table_text.

(** * A case *)
Definition str (s : string) : list N := List.map N_of_ascii (list_ascii_of_string s).
Definition sample : loc :=
  mkLoc 112 (Some (str "a+p7:8@9.1%f#3$O/b")) 18446744073709551613 2 None 1700000000000000000 42 (-5)%Z true 255 77
        [(4096, [mkItem 1 2 3; mkItem 18446744073709551615 0 9]); (64, []); (0, [mkItem 5 6 7])].
Example sample_proper : proper sample /\ typed sample.
Proof.
  split; constructor; cbn; unfold u64, UINT64_MAX, two64; try lia.
  - unfold kind. lia.
  - intros p E. injection E as <-. split; [discriminate|]. intros q. discriminate.
  - repeat (constructor; unfold u64, UINT64_MAX, two64; cbn; try lia).
Qed.
Example sample_text : location_format sample WITH_ALL =
  str "a+p7:8@9.1%f#3$O/b+p18446744073709551613:2@42.1700000000000000000.4294967291%ff#77$O1000H1S2X3HffffffffffffffffS0X9O40O0H5S6X7".
Proof. vm_compute. reflexivity. Qed.
Example sample_back : location_parse (location_format sample WITH_ALL) = Ok sample /\ location_parse (location_format sample WITH_SIZE) =
  Ok (mkLoc 112 (Some (str "a+p7:8@9.1%f#3$O/b")) 18446744073709551613 2 None UINT64_MAX 0 0%Z false UINT64_MAX UINT64_MAX []).
Proof. split; vm_compute; reflexivity. Qed.
Example bad_texts : forall t, In t [str "/a+p0"; str "a+x0"; str "a+p"; str "a"; str "x+v0"; str "a+p0:0"; str "a+p18446744073709551615"; str "a+p18446744073709551614:2"; str "a+p0@1"; str "a+p0$O1H2"] ->
  exists e, location_parse t = Err e.
Proof. intros t H. repeat (destruct H as [<-|H]; [eexists; vm_compute; reflexivity|]). destruct H. Qed.

(** * What does not hold *)
(** The text of a location that was advanced to its end can not be parsed, and the location can not be copied. *)
Theorem location_text_at_end_refuted : exists l h p r,
  location_new (Some (str "a")) 112 0 5 = Ok l /\ advance 0%nat 5 [mkObj 1 l None] = Some ((Ok 1, p), h)
  /\ rd p h = Some (r, h) /\ location_parse (location_format (val r) WITH_ALL) = Err EINVAL /\ location_copy (val r) = Err EINVAL.
Proof. do 4 eexists. repeat split; vm_compute; reflexivity. Qed.
Print Assumptions location_text_at_end_refuted.

(** Parsing takes texts formatting does not make: a vertical tab and a minus sign in front of the offset wrap it around. *)
Theorem location_parse_negative_refuted : exists l, location_parse (str "a+p" ++ [11] ++ str "-5") = Ok l /\ offset l = 18446744073709551611.
Proof. eexists. split; vm_compute; reflexivity. Qed.
Print Assumptions location_parse_negative_refuted.
