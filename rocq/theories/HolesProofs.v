(** Proofs about Holes.v. *)
From Coq Require Import Lia.
From Verif Require Import Base ReallocBufferProofs Holes.
Local Open Scope N_scope.

Lemma len_zeroes n : len (zeroes n) = n.
Proof. unfold len, zeroes. rewrite repeat_length. lia. Qed.
Lemma zeroes_0 : zeroes 0 = [].
Proof. reflexivity. Qed.
Lemma zeroes_app a b : zeroes (a + b) = zeroes a ++ zeroes b.
Proof. unfold zeroes. rewrite N2Nat.inj_add, repeat_app. reflexivity. Qed.
Lemma takeN_zeroes k n : k <= n -> takeN k (zeroes n) = zeroes k.
Proof. intro H. replace n with (k + (n - k)) by lia. rewrite zeroes_app. rewrite takeN_app_le by (rewrite len_zeroes; lia). apply takeN_all. rewrite len_zeroes. lia. Qed.

Definition ov (d : list N) (pos : N) (p : list N) : list N := takeN pos d ++ p ++ dropN (pos + len p) d.

Lemma put_at_ov d pos p : pos <= len d -> put_at d pos p = ov d pos p.
Proof. intro H. unfold put_at, ov. replace (pos - len d) with 0 by lia. reflexivity. Qed.
Lemma len_ov d pos p : pos <= len d -> len (ov d pos p) = N.max (len d) (pos + len p).
Proof. intro H. unfold ov. rewrite !len_app, len_takeN, len_dropN. lia. Qed.
Lemma ov_before d pos p : pos <= len d -> takeN pos (ov d pos p) = takeN pos d.
Proof. intro H. unfold ov. rewrite takeN_app_le by (rewrite len_takeN; lia). apply takeN_all. rewrite len_takeN. lia. Qed.
Lemma ov_nil d pos : ov d pos [] = d.
Proof. unfold ov. change (len (@nil N)) with 0. rewrite N.add_0_r. cbn [app]. apply takeN_dropN. Qed.
Lemma ov_app d pos a b : pos <= len d -> ov (ov d pos a) (pos + len a) b = ov d pos (a ++ b).
Proof.
  intro H. unfold ov at 1 3. rewrite len_app.
  assert (E : takeN (pos + len a) (ov d pos a) = takeN pos d ++ a).
  { unfold ov. rewrite app_assoc. rewrite takeN_app_le by (rewrite len_app, len_takeN; lia). apply takeN_all. rewrite len_app, len_takeN. lia. }
  rewrite E.
  assert (F : dropN (pos + len a + len b) (ov d pos a) = dropN (pos + (len a + len b)) d).
  { unfold ov. rewrite app_assoc. rewrite dropN_app_ge by (rewrite len_app, len_takeN; lia). rewrite len_app, len_takeN, dropN_dropN. f_equal. lia. }
  rewrite F. rewrite <- !app_assoc. reflexivity.
Qed.

(** [x] is what comes out of writing [p] at the position of [s]. *)
Definition fine (s : sink) : Prop := s_pos s <= len (s_data s) /\ (s_seek s = false -> s_pos s = len (s_data s)).
Definition wrote {A} (s : sink) (p : list N) (x : res A * sink) : Prop :=
  let (r, s') := x in
  s_seek s' = s_seek s /\ s_punch s' = s_punch s /\
  (s_next s = [] -> s_next s' = []) /\
  takeN (s_pos s) (s_data s') = takeN (s_pos s) (s_data s) /\
  match r with
  | Ok _ => s_data s' = ov (s_data s) (s_pos s) p /\ s_pos s' = s_pos s + len p
  | Err _ => s_next s = [] -> OFF_MAX < s_pos s + len p
  | _ => False
  end.

Lemma wrote_fine {A} s p (a : A) s' : fine s -> wrote s p (Ok a, s') -> fine s'.
Proof.
  intros [F G] (Hs & _ & _ & _ & Hd & Hp). unfold fine. rewrite Hd, Hp, Hs, len_ov by assumption. split; [lia | intro K; specialize (G K); lia].
Qed.
Lemma wrote_nil {A} s (a : A) : wrote s [] (Ok a, s).
Proof. cbn. rewrite ov_nil. repeat split; auto. change (len (@nil N)) with 0. lia. Qed.

(** One after the other. *)
Lemma wrote_lift {A B} s p q (x : res A * sink) (f : A -> sink -> res B * sink) :
  fine s -> wrote s p x -> (forall a s1, x = (Ok a, s1) -> fine s1 -> wrote s1 q (f a s1)) -> wrote s (p ++ q) (lift x f).
Proof.
  intros F W G. destruct x as [[a | e | |] s1]; cbn [lift].
  - pose proof (wrote_fine _ _ _ _ F W) as F1. specialize (G a s1 eq_refl F1).
    destruct W as (W1 & W2 & W3 & W4 & W5 & W6). destruct F as [F F'].
    destruct (f a s1) as [r s2]. cbn in *. destruct G as (G1 & G2 & G3 & G4 & G5).
    split; [congruence|]. split; [congruence|]. split; [auto|]. split.
    { rewrite W6 in G4. assert (E : takeN (s_pos s) (takeN (s_pos s + len p) (s_data s2)) = takeN (s_pos s) (takeN (s_pos s + len p) (s_data s1))) by (rewrite G4; reflexivity).
      rewrite !takeN_takeN in E. replace (N.min (s_pos s) (s_pos s + len p)) with (s_pos s) in E by lia. congruence. }
    destruct r; try assumption.
    + destruct G5 as [G5 G6]. rewrite G5, W5, W6, G6, ov_app, len_app by assumption. split; [reflexivity | lia].
    + intro K. specialize (G5 (W3 K)). rewrite W6 in G5. rewrite len_app. lia.
  - destruct W as (W1 & W2 & W3 & W4 & W5). cbn. repeat split; auto. intro K. specialize (W5 K). rewrite len_app. lia.
  - destruct W as (_ & _ & _ & _ & []).
  - destruct W as (_ & _ & _ & _ & []).
Qed.

Lemma pop_cases s h s1 : pop s = (h, s1) ->
  s_data s1 = s_data s /\ s_pos s1 = s_pos s /\ s_seek s1 = s_seek s /\ s_punch s1 = s_punch s /\
  (s_next s = [] -> h = None /\ s_next s1 = []).
Proof. unfold pop. destruct (s_next s) eqn:E; injection 1 as <- <-; cbn; repeat split; auto; discriminate. Qed.

Lemma sys_write_ok s p r s' : fine s -> p <> [] -> sys_write s p = (r, s') ->
  (exists k, r = Ok k /\ 1 <= k <= len p /\ wrote s (takeN k p) (Ok tt, s')) \/ (exists e, r = Err e /\ wrote s p (@Err unit e, s')).
Proof.
  intros F Hp. unfold sys_write. destruct (pop s) as [h s1] eqn:P. destruct (pop_cases _ _ _ P) as (P1 & P2 & P3 & P4 & P5).
  assert (L : 1 <= len p). { destruct p; [congruence | rewrite len_cons; lia]. }
  assert (X : forall k, 1 <= k <= len p -> wrote s (takeN k p) (Ok tt, moved s1 (put_at (s_data s1) (s_pos s1) (takeN k p)) (s_pos s1 + k))).
  { intros k Hk. destruct F as [F F']. cbn. rewrite P1, P2, put_at_ov, ov_before by assumption. repeat split; auto; [intro K; apply P5; exact K | rewrite len_takeN; lia]. }
  destruct h as [[n | e] |]; cbv beta iota zeta; injection 1 as <- <-.
  - left. eexists. split; [reflexivity|]. split; [|apply X]; lia.
  - right. exists e. split; [reflexivity|]. cbn. rewrite P1, P3, P4. repeat split; auto; intro K; destruct (P5 K); auto. discriminate.
  - left. eexists. split; [reflexivity|]. split; [|apply X]; lia.
Qed.

Lemma loop_write_ok : forall fuel s p, fine s -> (length p <= fuel)%nat -> wrote s p (loop_write_n fuel s p).
Proof.
  induction fuel as [|fuel IH]; intros s p F H.
  - destruct p; [apply wrote_nil | cbn in H; lia].
  - destruct p as [|b p]; [apply wrote_nil|]. cbn [loop_write_n]. set (q := b :: p) in *.
    destruct (sys_write s q) as [r s1] eqn:E.
    destruct (sys_write_ok _ _ _ _ F (fun K : q = [] => nil_cons (eq_sym K)) E) as [(k & -> & Hk & W) | (e & -> & W)]; [|exact W].
    destruct (len q <? k) eqn:C; [apply N.ltb_lt in C; lia|].
    rewrite <- (takeN_dropN k q) at 1.
    apply (wrote_lift s (takeN k q) (dropN k q) (Ok tt, s1) (fun _ s => loop_write_n fuel s (dropN k q))); [exact F | exact W|].
    intros a s2 Q F2. injection Q as <- <-. apply IH; [exact F2|].
    assert (len (dropN k q) = len q - k) by apply len_dropN. unfold len in H0. unfold len in Hk. lia.
Qed.
Lemma loop_write_fine s p : fine s -> wrote s p (loop_write s p).
Proof. intro F. apply loop_write_ok; [exact F | lia]. Qed.

Lemma write_zeroes_n_ok : forall fuel s l, fine s -> l <= N.of_nat fuel -> wrote s (zeroes l) (write_zeroes_n fuel s l).
Proof.
  induction fuel as [|fuel IH]; intros s l F H; cbn [write_zeroes_n].
  - assert (l = 0) as -> by lia. apply wrote_nil.
  - destruct (l =? 0) eqn:E0; [apply N.eqb_eq in E0; subst; apply wrote_nil|]. apply N.eqb_neq in E0.
    destruct (sys_write s (zeroes (N.min l 4096))) as [r s1] eqn:E.
    assert (NE : zeroes (N.min l 4096) <> []). { intro K. apply (f_equal len) in K. rewrite len_zeroes in K. change (len (@nil N)) with 0 in K. lia. }
    destruct (sys_write_ok _ _ _ _ F NE E) as [(k & -> & Hk & W) | (e & -> & W)].
    + rewrite len_zeroes in Hk. rewrite takeN_zeroes in W by lia. destruct (l <? k) eqn:C; [apply N.ltb_lt in C; lia|].
      replace (zeroes l) with (zeroes k ++ zeroes (l - k)) by (rewrite <- zeroes_app; f_equal; lia).
      apply (wrote_lift s (zeroes k) (zeroes (l - k)) (Ok tt, s1) (fun _ s => write_zeroes_n fuel s (l - k))); [exact F | exact W|].
      intros a s2 Q F2. injection Q as <- <-. apply IH; [exact F2 | lia].
    + destruct W as (W1 & W2 & W3 & W4 & W5). cbn. repeat split; auto. intro K. specialize (W5 K). rewrite len_zeroes in *. lia.
Qed.

Lemma takeN_more a b (d e : list N) : a <= b -> takeN b d = takeN b e -> takeN a d = takeN a e.
Proof. intros H E. assert (takeN a (takeN b d) = takeN a (takeN b e)) by (rewrite E; reflexivity). rewrite !takeN_takeN in H0. replace (N.min a b) with a in H0 by lia. exact H0. Qed.

Lemma write_zeroes_fine s l : fine s -> wrote s (zeroes l) (write_zeroes s l).
Proof.
  intro F. unfold write_zeroes. destruct (l =? 0) eqn:E0; [apply N.eqb_eq in E0; subst; apply wrote_nil|]. apply N.eqb_neq in E0.
  unfold sys_tell. destruct (s_seek s) eqn:Sk.
  2:{ apply write_zeroes_n_ok; [exact F | lia]. }
  destruct (OFF_MAX <? s_pos s + l) eqn:O.
  { apply N.ltb_lt in O. cbn. rewrite len_zeroes. repeat split; auto. }
  unfold sys_seek_end. destruct (pop s) as [h s1] eqn:P. destruct (pop_cases _ _ _ P) as (P1 & P2 & P3 & P4 & P5).
  assert (Bad : forall e s9, s_seek s9 = s_seek s -> s_punch s9 = s_punch s -> s_next s <> [] -> takeN (s_pos s) (s_data s9) = takeN (s_pos s) (s_data s) ->
            wrote s (zeroes l) (@Err bool e, s9)).
  { intros e s9 H1 H2 H3 H4. cbn. repeat split; auto; intro K; congruence. }
  assert (Next : forall x, h = Some x -> s_next s <> []). { intros x -> K. destruct (P5 K). discriminate. }
  assert (Main : wrote s (zeroes l)
    (let rest s0 :=
       let last s := match sys_seek s (s_pos s1 + l) with (Ok _, s) => (Ok true, s) | (Err x, s) => (Err x, s) | (Abort, s) => (Abort, s) | (UB, s) => (UB, s) end in
       if len (s_data s1) <? s_pos s1 + l then
         match sys_truncate s0 (s_pos s1 + l) with (Ok _, s) => last s | (Err x, s) => (Err x, s) | (Abort, s) => (Abort, s) | (UB, s) => (UB, s) end
       else last s0 in
     if s_pos s1 <? len (s_data s1) then
       match sys_punch (moved s1 (s_data s1) (len (s_data s1))) (s_pos s1) l with
       | (Ok _, s) => rest s
       | (_, s) => match sys_seek s (s_pos s1) with (Ok _, s) => write_zeroes_n (N.to_nat l) s l | (Err x, s) => (Err x, s)
                   | (Abort, s) => (Abort, s) | (UB, s) => (UB, s) end
       end
     else rest (moved s1 (s_data s1) (len (s_data s1))))).
  { cbv zeta. destruct F as [F F']. set (D := s_data s) in *. set (p := s_pos s) in *.
    (* what [rest] does, given contents that differ from the old ones only in that the part in question reads as zeroes *)
    assert (Rest : forall s2, s_seek s2 = s_seek s -> s_punch s2 = s_punch s -> (s_next s = [] -> s_next s2 = []) ->
              s_data s2 = takeN (len D) (ov D p (zeroes l)) ->
              wrote s (zeroes l)
               (let last s := match sys_seek s (p + l) with (Ok _, s) => (Ok true, s) | (Err x, s) => (Err x, s) | (Abort, s) => (Abort, s) | (UB, s) => (UB, s) end in
                if len D <? p + l then
                  match sys_truncate s2 (p + l) with (Ok _, s) => last s | (Err x, s) => (Err x, s) | (Abort, s) => (Abort, s) | (UB, s) => (UB, s) end
                else last s2)).
    { intros s2 A1 A2 A3 A4. cbv zeta.
      assert (Pre : takeN p (s_data s2) = takeN p D). { rewrite A4, takeN_takeN. replace (N.min p (len D)) with p by lia. apply ov_before. exact F. }
      assert (Last : forall s3, s_seek s3 = s_seek s -> s_punch s3 = s_punch s -> (s_next s = [] -> s_next s3 = []) -> s_data s3 = ov D p (zeroes l) ->
                wrote s (zeroes l) match sys_seek s3 (p + l) with (Ok _, s) => (Ok true, s) | (Err x, s) => (@Err bool x, s) | (Abort, s) => (Abort, s) | (UB, s) => (UB, s) end).
      { intros s3 B1 B2 B3 B4. unfold sys_seek. destruct (pop s3) as [h3 s4] eqn:P3'. destruct (pop_cases _ _ _ P3') as (Q1 & Q2 & Q3 & Q4 & Q5).
        destruct h3 as [[n | e] |].
        - cbn. fold D p. rewrite Q1, B4, len_zeroes. repeat split; try congruence; [intro K; destruct (Q5 (B3 K)); discriminate | apply ov_before; exact F].
        - apply Bad; [congruence | congruence | intro K; destruct (Q5 (B3 K)); discriminate | rewrite Q1, B4; apply ov_before; exact F].
        - cbn. fold D p. rewrite Q1, B4, len_zeroes. repeat split; try congruence; [intro K; apply Q5; auto | apply ov_before; exact F]. }
      destruct (len D <? p + l) eqn:C.
      - apply N.ltb_lt in C. unfold sys_truncate. destruct (pop s2) as [h2 s3] eqn:P2'. destruct (pop_cases _ _ _ P2') as (Q1 & Q2 & Q3 & Q4 & Q5).
        assert (T : takeN (p + l) (s_data s3) ++ zeroes (p + l - len (s_data s3)) = ov D p (zeroes l)).
        { rewrite Q1, A4. unfold ov. rewrite len_zeroes. rewrite (dropN_all (p + l) D) by lia. rewrite app_nil_r.
          rewrite takeN_app_ge by (rewrite len_takeN; lia). rewrite len_takeN. replace (N.min p (len D)) with p by lia.
          rewrite takeN_zeroes by lia. rewrite (takeN_all (p + l)) by (rewrite len_app, len_takeN, len_zeroes; lia).
          rewrite len_app, len_takeN, len_zeroes, <- app_assoc, <- zeroes_app. f_equal. f_equal. lia. }
        destruct h2 as [[n | e] |].
        + apply Last; cbn; [congruence | congruence | intro K; destruct (Q5 (A3 K)); auto | exact T].
        + apply Bad; [congruence | congruence | intro K; destruct (Q5 (A3 K)); discriminate | rewrite Q1; exact Pre].
        + apply Last; cbn; [congruence | congruence | intro K; destruct (Q5 (A3 K)); auto | exact T].
      - apply N.ltb_ge in C. apply Last; auto. rewrite A4. apply takeN_all. rewrite len_ov, len_zeroes by exact F. lia. }
    rewrite P2, P1. fold D p. destruct (p <? len D) eqn:C.
    - apply N.ltb_lt in C. unfold sys_punch. cbn [s_punch moved].
      assert (Fall : forall s5, s_seek s5 = s_seek s -> s_punch s5 = s_punch s -> (s_next s = [] -> s_next s5 = []) -> s_data s5 = D ->
                wrote s (zeroes l) match sys_seek s5 p with (Ok _, s) => write_zeroes_n (N.to_nat l) s l | (Err x, s) => (Err x, s) | (Abort, s) => (Abort, s) | (UB, s) => (UB, s) end).
      { intros s5 B1 B2 B3 B4. unfold sys_seek. destruct (pop s5) as [h5 s6] eqn:P5'. destruct (pop_cases _ _ _ P5') as (Q1 & Q2 & Q3 & Q4 & Q5).
        assert (G : wrote s (zeroes l) (write_zeroes_n (N.to_nat l) (moved s6 (s_data s6) p) l)).
        { assert (Fi : fine (moved s6 (s_data s6) p)). { split; cbn; [rewrite Q1, B4; exact F | intro K; rewrite Q1, B4; apply F'; congruence]. }
          pose proof (write_zeroes_n_ok (N.to_nat l) (moved s6 (s_data s6) p) l Fi ltac:(lia)) as W.
          destruct (write_zeroes_n (N.to_nat l) (moved s6 (s_data s6) p) l) as [r s7]. cbn in *. fold D p. destruct W as (W1 & W2 & W3 & W4 & W5).
          rewrite Q1, B4 in *. split; [congruence|]. split; [congruence|]. split; [intro K; apply W3, Q5, B3, K|]. split; [exact W4|].
          destruct r; auto. intro K. apply W5, Q5, B3, K. }
        destruct h5 as [[n | e] |]; [exact G | | exact G].
        apply Bad; [congruence | congruence | intro K; destruct (Q5 (B3 K)); discriminate | rewrite Q1, B4; reflexivity]. }
      destruct (s_punch s1) eqn:Pu; cbn [negb].
      + destruct (pop (moved s1 D (len D))) as [h4 s4] eqn:P4'. destruct (pop_cases _ _ _ P4') as (Q1 & Q2 & Q3 & Q4 & Q5). cbn in Q1, Q2, Q3, Q4, Q5.
        assert (Ru : s_data (moved s4 (takeN (len (s_data s4)) (put_at (s_data s4) p (zeroes l))) (s_pos s4)) = takeN (len D) (ov D p (zeroes l))).
        { cbn. rewrite Q1, put_at_ov by exact F. reflexivity. }
        destruct h4 as [[n | e] |].
        * apply Rest; cbn; [congruence | congruence | intro K; apply Q5, P5, K | exact Ru].
        * apply Fall; [congruence | congruence | intro K; apply Q5, P5, K | exact Q1].
        * apply Rest; cbn; [congruence | congruence | intro K; apply Q5, P5, K | exact Ru].
      + apply Fall; cbn; [congruence | congruence | intro K; apply P5, K | reflexivity].
    - apply N.ltb_ge in C. apply Rest; cbn; [congruence | congruence | intro K; apply P5, K |].
      unfold ov. rewrite takeN_app_le by (rewrite len_takeN; lia). rewrite takeN_takeN. replace (N.min (len D) p) with (len D) by lia. rewrite takeN_all; [reflexivity | lia]. }
  rewrite P2 in Main. destruct h as [[n | e] |].
  - exact Main.
  - apply Bad; [congruence | congruence | apply (Next _ eq_refl) | rewrite P1; reflexivity].
  - exact Main.
Qed.

(** ** memeqzero *)
Definition all_zero (p : list N) : Prop := p = zeroes (len p).
Lemma all_zero_cons b p : all_zero (b :: p) <-> b = 0 /\ all_zero p.
Proof.
  unfold all_zero. rewrite len_cons. replace (1 + len p) with (N.succ (len p)) by lia. unfold zeroes at 1. rewrite N2Nat.inj_succ. cbn [repeat]. fold (zeroes (len p)).
  split; [intro H; injection H as -> <-; auto | intros [-> <-]; reflexivity].
Qed.

Lemma memeq_shift : forall (n : nat) (z p : list N), (0 < length z)%nat -> all_zero z -> length p = n -> takeN (len p) (z ++ p) = takeN (len p) p -> all_zero p.
Proof.
  induction n as [n IH] using lt_wf_ind. intros z p Z Hz L E.
  rewrite (takeN_all (len p) p) in E by lia.
  destruct (N.le_gt_cases (len p) (len z)) as [C | C].
  - rewrite takeN_app_le in E by exact C. unfold all_zero. rewrite <- E at 1. rewrite Hz. apply takeN_zeroes. exact C.
  - rewrite takeN_app_ge in E by lia.
    assert (P : p = z ++ takeN (len p - len z) p) by (symmetry; exact E).
    assert (Q : all_zero (takeN (len p - len z) p)).
    { assert (S : (length (takeN (len p - len z) p) < n)%nat). { pose proof (len_takeN (len p - len z) p) as T. unfold len in *. lia. }
      set (k := len p - len z) in *. apply (IH (length (takeN k p)) S z (takeN k p) Z Hz eq_refl).
      assert (Lk : len (takeN k p) = k) by (rewrite len_takeN; lia). rewrite Lk.
      rewrite <- P. rewrite (takeN_all k (takeN k p)) by lia. reflexivity. }
    unfold all_zero in *. transitivity (zeroes (len z) ++ zeroes (len p - len z)).
    + rewrite len_takeN in Q. replace (N.min (len p - len z) (len p)) with (len p - len z) in Q by lia. rewrite <- Hz, <- Q. exact P.
    + rewrite <- zeroes_app. f_equal. lia.
Qed.

Lemma memeqzero_n_ok : forall i z p, all_zero z -> (i + length z = 16)%nat -> memeqzero_n i (z ++ p) p = true <-> all_zero p.
Proof.
  induction i as [|i IH]; intros z p Hz Hi; destruct p as [|b p].
  - split; [intros _; reflexivity | reflexivity].
  - cbn [memeqzero_n]. unfold memcmp_eq. rewrite beq_eq. split.
    + intro E. apply (memeq_shift _ z (b :: p) ltac:(lia) Hz eq_refl E).
    + intro A. unfold all_zero in *. rewrite Hz, A. rewrite len_zeroes, <- zeroes_app, !takeN_zeroes by lia. reflexivity.
  - split; [intros _; reflexivity | reflexivity].
  - cbn [memeqzero_n]. rewrite all_zero_cons. destruct (N.eqb_spec b 0) as [-> | n]; cbn [negb].
    + replace (z ++ 0 :: p) with ((z ++ [0]) ++ p) by (rewrite <- app_assoc; reflexivity). rewrite IH.
      * tauto.
      * unfold all_zero in *. rewrite len_app. change (len [0]) with 1. rewrite zeroes_app. rewrite <- Hz. reflexivity.
      * rewrite app_length. cbn. lia.
    + split; [discriminate | intros [? _]; contradiction].
Qed.
Lemma memeqzero_ok p : memeqzero p = true <-> all_zero p.
Proof. apply (memeqzero_n_ok 16 [] p); [reflexivity | reflexivity]. Qed.

(** ** loop_write_with_holes *)
Lemma slice_app p a b c : a <= b -> b <= c -> c <= len p -> slice p a b ++ slice p b c = slice p a c.
Proof.
  intros H1 H2 H3. unfold slice. replace (dropN b p) with (dropN (b - a) (dropN a p)) by (rewrite dropN_dropN; f_equal; lia).
  set (q := dropN a p). rewrite takeN_dropN_comm. replace (c - b + (b - a)) with (c - a) by lia.
  replace (takeN (b - a) q) with (takeN (b - a) (takeN (c - a) q)) by (rewrite takeN_takeN; f_equal; lia). apply takeN_dropN.
Qed.
Lemma slice_all p : slice p 0 (len p) = p.
Proof. unfold slice. rewrite dropN_0. apply takeN_all. lia. Qed.
Lemma len_slice p a b : a <= b -> b <= len p -> len (slice p a b) = b - a.
Proof. intros. unfold slice. rewrite len_takeN, len_dropN. lia. Qed.
Lemma slice_same p a : slice p a a = [].
Proof. unfold slice. rewrite N.sub_diag. apply takeN_0. Qed.

Definition zero_from (p : list N) (start q : N) (zero : option N) : Prop :=
  match zero with None => True | Some z => start <= z <= q /\ slice p z q = zeroes (q - z) end.

Lemma wrote_app_assoc {A} s p q (x : res A * sink) : p = q -> wrote s q x -> wrote s p x.
Proof. intros ->. auto. Qed.

Lemma holes_end_ok s p start zero punched : fine s -> start <= len p -> zero_from p start (len p) zero ->
  wrote s (slice p start (len p)) (holes_end s p (len p) start zero punched).
Proof.
  intros F Hs Z. unfold holes_end.
  assert (D : wrote s (slice p start (len p)) (lift (loop_write s (slice p start (len p))) (fun _ s => (Ok punched, s)))).
  { apply (wrote_app_assoc _ _ (slice p start (len p) ++ [])); [symmetry; apply app_nil_r|].
    apply wrote_lift; [exact F | apply loop_write_fine, F | intros; apply wrote_nil]. }
  destruct zero as [z|]; [|exact D]. destruct (HOLE_MIN <=? len p - z); [|exact D]. destruct Z as [Hz Z].
  apply (wrote_app_assoc _ _ (slice p start z ++ zeroes (len p - z) ++ [])).
  { rewrite app_nil_r, <- Z, slice_app by lia. reflexivity. }
  apply wrote_lift; [exact F | apply loop_write_fine, F | intros _ s1 _ F1].
  apply wrote_lift; [exact F1 | apply write_zeroes_fine, F1 | intros r s2 _ F2]. apply wrote_nil.
Qed.

Lemma holes_loop_ok p : forall fuel s q start zero punched,
  fine s -> start <= q -> q <= len p -> len p - q <= N.of_nat fuel -> zero_from p start q zero ->
  wrote s (slice p start (len p)) (holes_loop fuel s p q start zero punched).
Proof.
  induction fuel as [|fuel IH]; intros s q start zero punched F Hs Hq Hf Z; cbn [holes_loop].
  - replace (len p <=? q) with true by (symmetry; apply N.leb_le; lia). assert (q = len p) as -> by lia. apply holes_end_ok; auto.
  - destruct (len p <=? q) eqn:C.
    { apply N.leb_le in C. assert (q = len p) as -> by lia. apply holes_end_ok; auto. }
    apply N.leb_gt in C. cbv zeta. set (left := N.min HOLE_MIN (len p - q)).
    assert (Hl : 1 <= left /\ q + left <= len p) by (unfold left, HOLE_MIN; lia).
    destruct (memeqzero (slice p q (q + left))) eqn:M.
    + apply memeqzero_ok in M. unfold all_zero in M. rewrite len_slice in M by lia. replace (q + left - q) with left in M by lia.
      apply IH; try lia; [exact F|]. destruct zero as [z|]; cbn in *.
      * destruct Z as [Hz Z]. split; [lia|]. rewrite <- (slice_app p z q (q + left)) by lia. rewrite Z, M, <- zeroes_app. f_equal. lia.
      * split; [lia|]. rewrite M. f_equal. lia.
    + assert (Go : wrote s (slice p start (len p)) (holes_loop fuel s p (q + left) start None punched)) by (apply IH; try lia; [exact F | exact I]).
      destruct zero as [z|]; [|exact Go]. destruct (HOLE_MIN <=? q - z); [|exact Go]. destruct Z as [Hz Z].
      apply (wrote_app_assoc _ _ (slice p start z ++ zeroes (q - z) ++ slice p q (len p))).
      { rewrite <- Z, app_assoc, !slice_app by lia. reflexivity. }
      apply wrote_lift; [exact F | apply loop_write_fine, F | intros _ s1 _ F1].
      apply wrote_lift; [exact F1 | apply write_zeroes_fine, F1 | intros r s2 _ F2].
      destruct r.
      * apply IH; try lia; [exact F2 | exact I].
      * apply (wrote_app_assoc _ _ (slice p q (len p) ++ [])); [symmetry; apply app_nil_r|].
        apply wrote_lift; [exact F2 | apply loop_write_fine, F2 | intros; apply wrote_nil].
Qed.

Lemma holes_fine s p : fine s -> wrote s p (loop_write_with_holes s p).
Proof.
  intro F. unfold loop_write_with_holes. rewrite <- (slice_all p) at 1. apply holes_loop_ok; try lia; [exact F | unfold len; lia | exact I].
Qed.
