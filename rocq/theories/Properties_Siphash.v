(** C57: names are looked up by SipHash-2-4. *)
From Verif Require Import Base Siphash SiphashSpec SiphashProofs.
Local Open Scope N_scope.

(** C57. Whatever the pieces in which it is fed: nothing outside of a piece is read, and the result is SipHash-2-4 of the whole input. *)
Theorem siphash_streaming :
  forall key pieces, length key = 16%nat -> bytes_ok key = true -> Forall (fun p => bytes_ok p = true) pieces ->
  exists s0 s, siphash24_init key = Ok s0 /\ compress_all pieces s0 = Ok s /\ siphash_2_4 key (concat pieces) (siphash24_finalize s).
Proof.
  intros key ps L B Bp. destruct (init_fed key L B) as (k0 & k1 & s0 & K & I0 & F). destruct (all_fed _ ps _ _ F Bp) as (s & E & F2).
  destruct (fed_final _ _ _ F2) as (_ & ws & W & Fi). exists s0, s. split; [exact I0|]. split; [exact E|]. exists k0, k1, ws. auto.
Qed.
Print Assumptions siphash_streaming.

(** C57. In one go, as for the names in goodbye tables; the hash has 64 bits. *)
Theorem siphash_of_name :
  forall key name, length key = 16%nat -> bytes_ok key = true -> bytes_ok name = true ->
  exists h, siphash24 name key = Ok h /\ siphash_2_4 key name h /\ h < two64.
Proof.
  intros key p L B Bp. destruct (init_fed key L B) as (k0 & k1 & s0 & K & I0 & F). destruct (compress_fed _ _ _ p F Bp) as (s & E & F2).
  destruct (fed_final _ _ _ F2) as (Lt & ws & W & Fi). exists (siphash24_finalize s). unfold siphash24. rewrite I0. cbn [bind]. rewrite E. cbn [bind].
  split; [reflexivity|]. split; [|exact Lt]. exists k0, k1, ws. auto.
Qed.
Print Assumptions siphash_of_name.

Lemma words_functional l u : words_of l u -> forall v, words_of l v -> u = v.
Proof. induction 1; intros v V; inversion V; subst; [reflexivity|]. f_equal. auto. Qed.

(** C57. What the specification says is one number. *)
Theorem siphash_functional : forall key m h1 h2, siphash_2_4 key m h1 -> siphash_2_4 key m h2 -> h1 = h2.
Proof.
  intros key m h1 h2 (a & b & u & A1 & A2 & A3) (c & d & v & B1 & B2 & B3). pose proof (words_functional _ _ A1 _ B1) as E. injection E as -> ->.
  rewrite (words_functional _ _ A2 _ B2) in A3. congruence.
Qed.
Print Assumptions siphash_functional.

(** C57. So it does not matter how the input is cut into pieces. *)
Theorem siphash_pieces_irrelevant :
  forall key ps qs s0 s1 s2, length key = 16%nat -> bytes_ok key = true -> Forall (fun p => bytes_ok p = true) ps -> Forall (fun p => bytes_ok p = true) qs ->
  concat ps = concat qs -> siphash24_init key = Ok s0 -> compress_all ps s0 = Ok s1 -> compress_all qs s0 = Ok s2 ->
  siphash24_finalize s1 = siphash24_finalize s2.
Proof.
  intros key ps qs s0 s1 s2 L B Bp Bq E E0 E1 E2.
  destruct (siphash_streaming key ps L B Bp) as (x & y & X1 & X2 & X3). destruct (siphash_streaming key qs L B Bq) as (u & v & Y1 & Y2 & Y3).
  assert (x = s0) as -> by congruence. assert (u = s0) as -> by congruence. assert (y = s1) as -> by congruence. assert (v = s2) as -> by congruence.
  rewrite E in X3. eapply siphash_functional; eassumption.
Qed.
Print Assumptions siphash_pieces_irrelevant.

(** The key of the goodbye tables is one. *)
Example goodbye_key : length GOODBYE_HASH_KEY = 16%nat /\ bytes_ok GOODBYE_HASH_KEY = true.
Proof. split; reflexivity. Qed.

(** The test vectors of the authors' reference implementation (key 00 01 .. 0f, inputs 00 01 .. of 0, 1, and 15 bytes), and 15 bytes in pieces. *)
Definition tv_key : list N := [0;1;2;3;4;5;6;7;8;9;10;11;12;13;14;15].
Example test_vectors :
  siphash24 [] tv_key = Ok 0x726fdb47dd0e0e31 /\ siphash24 [0] tv_key = Ok 0x74f839c593dc67fd /\ siphash24 (firstn 15 tv_key) tv_key = Ok 0xa129ca6149be45e5 /\
  (let! s0 := siphash24_init tv_key in let! s := compress_all [[0; 1; 2]; []; [3; 4]; [5; 6; 7; 8; 9; 10; 11; 12; 13]; [14]] s0 in Ok (siphash24_finalize s)) = Ok 0xa129ca6149be45e5.
Proof. repeat apply conj; vm_compute; reflexivity. Qed.
