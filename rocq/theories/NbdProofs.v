(** Proofs about the block device. *)
From Coq Require Import Lia.
From Verif Require Import Base ArchiveBase Decoder Seek Nbd NbdSpec.
Local Open Scope N_scope.

Lemma be_enc_spec k : forall n, big_endian k n = be_enc k n.
Proof.
  unfold be_enc. induction k as [|k IH]; intro n; [reflexivity|]. cbn [big_endian le_enc rev]. rewrite IH. reflexivity.
Qed.
Lemma be_dec_enc k n : n < 256 ^ N.of_nat k -> be_dec (be_enc k n) = n.
Proof. intro H. unfold be_dec, be_enc. rewrite rev_involutive. apply le_dec_enc. exact H. Qed.
Lemma len_be k n : len (be_enc k n) = N.of_nat k.
Proof. unfold len, be_enc. rewrite rev_length, le_enc_length. reflexivity. Qed.

Lemma nth_firstn_lt (l : list N) : forall n k, (k < n)%nat -> nth k (firstn n l) 0 = nth k l 0.
Proof.
  induction l as [|a l IH]; intros n k H; [rewrite firstn_nil; reflexivity|]. destruct n as [|n]; [lia|]. cbn [firstn].
  destruct k as [|k]; [reflexivity|]. cbn [nth]. apply IH. lia.
Qed.
Lemma nth_skipn_at (l : list N) : forall n k, nth k (skipn n l) 0 = nth (n + k) l 0.
Proof.
  induction l as [|a l IH]; intros n k; [rewrite skipn_nil; destruct k, n; reflexivity|]. destruct n as [|n]; [reflexivity|]. cbn [skipn Nat.add nth]. apply IH.
Qed.

(** What is read is a slice of the blob with zeroes behind it. *)
Lemma device_read_slice b from n : device_read b from n = takeN n (dropN from b) ++ repeat 0 (N.to_nat (n - len (takeN n (dropN from b)))).
Proof.
  unfold device_read. apply nth_ext with (d := 0) (d' := 0).
  - rewrite map_length, seq_length, app_length, repeat_length. pose proof (len_takeN n (dropN from b)) as L. unfold len in *. lia.
  - intros k Hk. rewrite map_length, seq_length in Hk.
    rewrite nth_indep with (d' := device_byte b (from + N.of_nat O)) by (rewrite map_length, seq_length; exact Hk).
    rewrite map_nth with (f := fun k => device_byte b (from + N.of_nat k)). rewrite seq_nth by exact Hk. cbn [Nat.add]. unfold device_byte.
    destruct (Nat.lt_ge_cases k (length (takeN n (dropN from b)))) as [H | H].
    + rewrite app_nth1 by exact H. unfold takeN, dropN in *. rewrite firstn_length, skipn_length in H.
      rewrite nth_firstn_lt by lia. rewrite nth_skipn_at. f_equal. lia.
    + rewrite app_nth2 by exact H. rewrite nth_overflow. { symmetry. destruct (nth_in_or_default (k - length (takeN n (dropN from b))) (repeat 0 (N.to_nat (n - len (takeN n (dropN from b))))) 0) as [I | I]; [apply repeat_spec in I; exact I | exact I]. }
      unfold takeN, dropN in H. rewrite firstn_length, skipn_length in H. lia.
Qed.

Lemma mask512 x : x < two64 -> N.land x (two64 - 512) = x / 512 * 512.
Proof.
  intro H. change (two64 - 512) with (N.lnot (N.ones 9) 64). destruct (N.eq_0_gt_0_cases x) as [-> | P]; [reflexivity|].
  rewrite <- N.ldiff_land_low by (apply N.log2_lt_pow2; [exact P | exact H]). rewrite N.ldiff_ones_r, N.shiftl_mul_pow2, N.shiftr_div_pow2. reflexivity.
Qed.
Lemma round512 x : x / 512 * 512 <= x /\ x < x / 512 * 512 + 512.
Proof. pose proof (N.div_mod x 512 ltac:(lia)). pose proof (N.mod_lt x 512 ltac:(lia)). lia. Qed.

Section Serve.
Variables (env : denv) (hash : list N -> N) (b : list N).
Hypothesis Hb : len b < UINT64_MAX.

Definition bare (s : sdec) : Prop := exists nn x, d_nodes (s_d s) = [nn] /\ dn_entry nn = None /\ (S_ISREG (dn_mode nn) || S_ISBLK (dn_mode nn)) = true /\
  (dn_mode nn =? MODE_NONE) = false /\ s_x s = [x] /\ x_end x = len b.
Definition AB (s : sdec) : Prop := bare s /\ s_st s = SNone /\ d_state (s_d s) = D_IN_PAYLOAD /\ d_step (s_d s) = len (d_buf (s_d s)).
Definition CC (s : sdec) (p : list N) : Prop :=
  bare s /\ s_st s = SNone /\ d_state (s_d s) = D_IN_PAYLOAD /\ d_step (s_d s) = 0 /\ d_buf (s_d s) = p /\ p <> [] /\ d_eof (s_d s) = false.
Definition Sk (s : sdec) (off : N) : Prop :=
  bare s /\ s_st s = SSeek KOffset /\ d_buf (s_d s) = [] /\ d_step (s_d s) = 0 /\ d_eof (s_d s) = false /\ s_off s = off.
Definition Pr (s : sdec) (off : N) : Prop := bare s /\ s_st s = SPrep KOffset /\ d_step (s_d s) = 0 /\ s_off s = off.

Ltac opens s := destruct s as [dd st xs down sub sib idx soff end_ pay]; destruct dd as [state ff nodes buf eof aoff poff step bound];
  cbn [s_d s_st s_x s_down s_sub s_sib s_idx s_off s_end s_pay d_state d_ff d_nodes d_buf d_eof d_aoff d_poff d_step d_bound] in *.
Ltac simpl_s := cbn [s_d s_st s_x s_down s_sub s_sib s_idx s_off s_end s_pay d_state d_ff d_nodes d_buf d_eof d_aoff d_poff d_step d_bound].

Lemma step_AB s : AB s -> exists s', sstep env hash s = Ok (if d_eof (s_d s) then SR R_FINISHED else SR R_REQUEST, s') /\ bare s' /\
  (d_eof (s_d s) = false -> AB s' /\ d_buf (s_d s') = [] /\ d_eof (s_d s') = false).
Proof.
  intros ((nn & x & N1 & N2 & N3 & N4 & X1 & X2) & H1 & H2 & H3). opens s. subst nodes xs st state step.
  unfold sstep. simpl_s. unfold decoder_step. simpl_s.
  assert (A : exists ao po, advance_buffer (mkDec D_IN_PAYLOAD ff [nn] buf eof aoff poff (len buf) bound) = Ok (mkDec D_IN_PAYLOAD ff [nn] [] eof ao po 0 bound)).
  { unfold advance_buffer. simpl_s. destruct (len buf =? 0) eqn:E.
    - apply N.eqb_eq in E. rewrite (len_zero_nil _ E). exists aoff, poff. change (len (@nil N)) with 0. reflexivity.
    - rewrite N.ltb_irrefl. rewrite dropN_all by lia. exists (add64 aoff (len buf)), (poff + len buf). reflexivity. }
  destruct A as (ao & po & ->). cbn [bind]. simpl_s. unfold step_node, step_payload. simpl_s. unfold node_mode. rewrite N2, N4, N3. cbn [negb].
  change (0 <? len (@nil N)) with false. cbv iota. unfold at_root, is_naked. simpl_s. change (len [nn] =? 1) with true. rewrite N2, N3. cbn [negb some andb].
  destruct eof; cbn [bind]; unfold track; simpl_s; change (len [nn] <? len [nn]) with false; cbv iota;
    (eexists; split; [reflexivity|]); (split; [exists nn, x; simpl_s; auto 8|]); [discriminate|].
  intros _. split; [|split; reflexivity]. split; [exists nn, x; simpl_s; auto 8|]. split; [reflexivity|]. split; reflexivity.
Qed.

Lemma step_CC s p : CC s p -> exists s', sstep env hash s = Ok (SR R_PAYLOAD, s') /\ AB s' /\ d_eof (s_d s') = false /\ payload_of s' = Ok p.
Proof.
  intros ((nn & x & N1 & N2 & N3 & N4 & X1 & X2) & H1 & H2 & H3 & H4 & H5 & H6). opens s. subst nodes xs st state step buf eof.
  unfold sstep. simpl_s. unfold decoder_step. simpl_s. unfold advance_buffer. simpl_s. change (0 =? 0) with true. cbn [bind]. simpl_s.
  unfold step_node, step_payload. simpl_s. unfold node_mode. rewrite N2, N4, N3. cbn [negb].
  assert (L : 0 < len p) by (destruct p; [congruence | rewrite len_cons; lia]).
  destruct (0 <? len p) eqn:E; [|apply N.ltb_ge in E; lia]. cbn [bind]. unfold track. simpl_s. change (len [nn] <? len [nn]) with false. cbv iota.
  eexists. split; [reflexivity|]. split; [split; [exists nn, x; simpl_s; auto 8|]; split; [reflexivity|]; split; reflexivity|]. split; [reflexivity|].
  unfold payload_of. cbn [s_d with_d s_st d_state d_buf d_step]. destruct (len p =? 0) eqn:Z; [apply N.eqb_eq in Z; lia|]. rewrite N.ltb_irrefl.
  rewrite takeN_all by lia. reflexivity.
Qed.

Lemma step_Sk s off : Sk s off -> exists s', sstep env hash s = Ok (SR R_REQUEST, s') /\ AB s' /\ d_buf (s_d s') = [] /\ d_eof (s_d s') = false.
Proof.
  intros ((nn & x & N1 & N2 & N3 & N4 & X1 & X2) & H1 & H2 & H3 & H4 & H5). opens s. subst nodes xs st step buf eof soff.
  unfold sstep. simpl_s. unfold advance_buffer. simpl_s. change (0 =? 0) with true. cbn [bind]. unfold with_d. simpl_s.
  unfold is_naked. simpl_s. rewrite N2, N3. cbn [negb some andb]. unfold seeking_payload, step_payload. simpl_s. unfold node_mode. rewrite N2, N4, N3. cbn [negb].
  change (0 <? len (@nil N)) with false. cbn [bind]. eexists. split; [reflexivity|].
  split; [|split; reflexivity]. split; [exists nn, x; cbn; auto 8|]. split; [reflexivity|]. split; reflexivity.
Qed.

Lemma step_Pr s off : off < UINT64_MAX -> Pr s off -> exists s', sstep env hash s = Ok (R_SEEK, s') /\ Sk s' off /\ get_seek_offset s' = Ok off.
Proof.
  intros Ho ((nn & x & N1 & N2 & N3 & N4 & X1 & X2) & H1 & H2 & H3). opens s. subst nodes xs st step soff.
  unfold sstep. simpl_s. unfold advance_buffer. simpl_s. change (0 =? 0) with true. cbn [bind]. unfold with_d. simpl_s.
  unfold is_naked. simpl_s. rewrite N2, N3. cbn [negb some andb]. unfold node_mode. rewrite N2, N4, N3. cbn [negb].
  eexists. split; [reflexivity|]. split.
  - split; [exists nn, x; cbn; auto 8|]. split; [reflexivity|]. split; [reflexivity|]. split; [reflexivity|]. split; reflexivity.
  - unfold get_seek_offset. cbn. destruct (off =? UINT64_MAX) eqn:Z; [apply N.eqb_eq in Z; lia | reflexivity].
Qed.

Lemma seek_bare s off : bare s -> off <= len b ->
  exists s', seek_offset (set_archive_size s (len b)) off = Ok s' /\ bare s' /\
    (off < len b -> Pr s' off) /\ (off = len b -> s_st s' = SNone /\ d_state (s_d s') = D_EOF).
Proof.
  intros (nn & x & N1 & N2 & N3 & N4 & X1 & X2) L. opens s. subst nodes xs.
  unfold seek_offset, set_archive_size, with_x. simpl_s. cbn [rev app]. destruct (off =? UINT64_MAX) eqn:Z; [apply N.eqb_eq in Z; lia|].
  unfold is_naked. simpl_s. rewrite N2, N3. cbn [negb some andb set_root_end x_end].
  destruct (len b =? UINT64_MAX) eqn:Z1; [apply N.eqb_eq in Z1; lia|]. destruct (len b <? off) eqn:Z2; [apply N.ltb_lt in Z2; lia|].
  destruct (off =? len b) eqn:Z3.
  - apply N.eqb_eq in Z3. eexists. split; [reflexivity|]. split; [|split; [intro; lia | intros _; split; reflexivity]].
    exists nn, (set_root_end x (len b)). cbn. auto 8.
  - apply N.eqb_neq in Z3. eexists. split; [reflexivity|].
    assert (B : bare (prep (reset_seek (mkSdec (mkDec state ff [nn] buf eof aoff poff step bound) st [set_root_end x (len b)] down sub sib idx soff end_ pay)) KOffset off UINT64_MAX)).
    { exists nn, (set_root_end x (len b)). cbn. auto 8. }
    split; [exact B|]. split; [|intro; lia]. intros _. split; [exact B|]. split; [reflexivity|]. split; reflexivity.
Qed.

(** ** One request *)
Section One.
Variables (d : nbd) (off n : N) (sent : list N -> nbd).
Hypothesis Hoff : off <= len b.
Hypothesis Hn : 0 < n.
Hypothesis Hput : forall data, len data = n -> put_data d off data = Ok (sent data).

Definition slice_at (k : N) : list N := takeN k (dropN off b).
Definition okay (next : list (res N)) : Prop := Forall (fun r => match r with Ok _ | Err _ => True | _ => False end) next.
(** The answer, right; or an error there was in reading the blob. *)
Definition later (a c : list (res N)) : Prop := exists p, c = p ++ a.
Lemma later_refl a : later a a.
Proof. exists []. reflexivity. Qed.
Lemma later_tran a c e : later a c -> later c e -> later a e.
Proof. intros [p ->] [q ->]. exists (q ++ p). apply app_assoc. Qed.
Lemma later_tl h a : later a (h :: a).
Proof. exists [h]. reflexivity. Qed.
Lemma later_in a c : later a c -> incl a c.
Proof. intros [p ->] x I. apply in_or_app. right. exact I. Qed.
Definition right (next : list (res N)) (r : res (nbd * csync)) : Prop :=
  (exists y', r = Ok (sent (device_read b off n), y') /\ bare (y_dec y') /\ okay (y_next y') /\ later (y_next y') next) \/
  (exists e, r = Err e /\ In (Err e) next).

Lemma right_later a c r : later a c -> right a r -> right c r.
Proof.
  intros I [(y' & E & B & O & K) | (e & E & K)]; [left; exists y'; split; [exact E|]; split; [exact B|]; split; [exact O | exact (later_tran _ _ _ K I)]|].
  right. exists e. split; [exact E | exact (later_in _ _ I _ K)].
Qed.

Lemma slice_plus k p : slice_at k ++ takeN p (dropN (off + k) b) = slice_at (k + p).
Proof.
  unfold slice_at. rewrite (N.add_comm off k), <- dropN_dropN.
  set (l := dropN off b). clearbody l.
  destruct (N.le_gt_cases k (len l)) as [H | H].
  - rewrite <- (takeN_dropN k l) at 3. rewrite takeN_app_ge by (rewrite len_takeN; lia). f_equal. f_equal. rewrite len_takeN. lia.
  - rewrite (dropN_all k l) by lia. rewrite (takeN_all p []) by (change (len (@nil N)) with 0; lia). rewrite (takeN_all k l), (takeN_all (k + p) l) by lia. apply app_nil_r.
Qed.

Lemma slice_len k : off + k <= len b -> len (slice_at k) = k.
Proof. intro H. unfold slice_at. rewrite len_takeN, len_dropN. lia. Qed.

Lemma full_read k : n <= k -> takeN n (slice_at k) = takeN n (dropN off b).
Proof. intro H. unfold slice_at. rewrite takeN_takeN. f_equal. lia. Qed.

Lemma device_full : off + n <= len b -> takeN n (dropN off b) = device_read b off n.
Proof.
  intro H. rewrite device_read_slice. assert (L : len (takeN n (dropN off b)) = n) by (rewrite len_takeN, len_dropN; lia).
  rewrite L, N.sub_diag. change (N.to_nat 0) with O. cbn [repeat]. rewrite app_nil_r. reflexivity.
Qed.

(** Where the inner loop may be; [k] bytes are in its buffer. *)
Inductive where_ (y : csync) (k : N) : nat -> Prop :=
| w_prep : Pr (y_dec y) off -> k = 0 -> off < len b -> where_ y k (N.to_nat (2 * (len b - off)) + length (y_next y) + 4)
| w_seek : Sk (y_dec y) off -> k = 0 -> y_pos y = off -> off < len b -> where_ y k (N.to_nat (2 * (len b - off)) + length (y_next y) + 3)
| w_abe : AB (y_dec y) -> d_eof (s_d (y_dec y)) = true -> off + k = len b -> where_ y k 1
| w_ab : AB (y_dec y) -> d_eof (s_d (y_dec y)) = false -> y_pos y = off + k -> off + k <= len b ->
    where_ y k (N.to_nat (2 * (len b - (off + k))) + length (y_next y) + 3)
| w_c p : CC (y_dec y) p -> p = takeN (len p) (dropN (off + k) b) -> y_pos y = off + k + len p -> off + k + len p <= len b ->
    where_ y k (N.to_nat (2 * (len b - (off + k + len p))) + length (y_next y) + 4)
| w_eof : bare (y_dec y) -> s_st (y_dec y) = SNone -> d_state (s_d (y_dec y)) = D_EOF -> k = 0 -> off = len b -> where_ y k 1.

Lemma sput_CC s p : AB s -> d_buf (s_d s) = [] -> d_eof (s_d s) = false -> p <> [] -> exists s', sput s p = Ok s' /\ CC s' p.
Proof.
  intros ((nn & x & N1 & N2 & N3 & N4 & X1 & X2) & H1 & H2 & H3) H4 H5 H6. opens s. subst nodes xs st state buf eof. change (len (@nil N)) with 0 in H3. subst step.
  unfold sput, decoder_put_data. simpl_s. destruct (len p =? 0) eqn:Z; [apply N.eqb_eq in Z; apply len_zero_nil in Z; congruence|]. cbn [bind app].
  eexists. split; [reflexivity|]. split; [exists nn, x; cbn; auto 8|]. cbn. auto 8.
Qed.
Lemma sput_eof_AB s : AB s -> AB (sput_eof s) /\ d_eof (s_d (sput_eof s)) = true.
Proof.
  intros ((nn & x & N1 & N2 & N3 & N4 & X1 & X2) & H1 & H2 & H3). opens s. subst nodes xs st state. split; [|reflexivity].
  split; [exists nn, x; cbn; auto 8|]. cbn. auto.
Qed.

(** What a request for data comes to. *)
Lemma request_right y k s' : y_eof y = false -> okay (y_next y) -> AB s' -> d_buf (s_d s') = [] -> d_eof (s_d s') = false -> y_pos y = off + k -> off + k <= len b ->
  (exists e, sync_request b y s' = Err e /\ In (Err e) (y_next y)) \/
  (exists r y' m, sync_request b y s' = Ok (r, y') /\ (r = Y_STEP \/ r = Y_POLL) /\ where_ y' k m /\ y_eof y' = false /\ okay (y_next y') /\ later (y_next y') (y_next y) /\
     (m + 1 <= N.to_nat (2 * (len b - (off + k))) + length (y_next y) + 3)%nat).
Proof.
  intros Y O A Bu Eo P L. unfold sync_request.
  assert (HH : exists h rest, (match y_next y with [] => (Ok (len b), []) | h :: rest => (h, rest) end) = (h, rest) /\ okay rest /\ later rest (y_next y) /\
            (length rest <= length (y_next y))%nat /\
            match h with Ok q => (q = 0 -> off + k < len b -> (length rest < length (y_next y))%nat) | Err e => In (Err e) (y_next y) | _ => False end).
  { destruct (y_next y) as [|h rest]; [exists (Ok (len b)), []|exists h, rest]; (split; [reflexivity|]).
    - split; [constructor|]. split; [apply later_refl|]. split; [lia|]. intros. lia.
    - inversion O as [|? ? O1 O2]; subst. split; [exact O2|]. split; [apply later_tl|]. split; [cbn [length]; lia|].
      destruct h; try contradiction; [intros; cbn [length]; lia | left; reflexivity]. }
  destruct HH as (h & rest & -> & O2 & I2 & L2 & HH). destruct h as [q | e | |]; try contradiction.
  2:{ left. exists e. split; [reflexivity | exact HH]. }
  right. destruct (len b <=? y_pos y) eqn:Z1.
  - apply N.leb_le in Z1. destruct (sput_eof_AB s' A) as [A2 E2].
    exists Y_STEP, (mkSync (sput_eof s') (y_pos y) (y_eof y) rest), 1%nat. split; [reflexivity|]. split; [left; reflexivity|].
    split; [apply w_abe; cbn [y_dec]; [exact A2 | exact E2 | lia]|]. split; [exact Y|]. split; [exact O2|]. split; [exact I2 | lia].
  - apply N.leb_gt in Z1. destruct (q =? 0) eqn:Z2.
    + apply N.eqb_eq in Z2. specialize (HH Z2 ltac:(lia)).
      exists Y_POLL, (mkSync s' (y_pos y) (y_eof y) rest). eexists. split; [reflexivity|]. split; [right; reflexivity|].
      split; [apply w_ab; cbn [y_dec y_pos]; assumption|]. cbn [y_next y_eof]. split; [exact Y|]. split; [exact O2|]. split; [exact I2 | lia].
    + apply N.eqb_neq in Z2. set (p := takeN q (dropN (y_pos y) b)).
      assert (Lp : len p = N.min q (len b - (off + k))) by (unfold p; rewrite len_takeN, len_dropN, P; reflexivity).
      assert (Np : p <> []) by (intro H; rewrite H in Lp; change (len (@nil N)) with 0 in Lp; lia).
      destruct (sput_CC s' p A Bu Eo Np) as (s2 & -> & C2). cbn [bind].
      exists Y_STEP, (mkSync s2 (y_pos y + len p) (y_eof y) rest). eexists. split; [reflexivity|]. split; [left; reflexivity|].
      split; [apply w_c with (p := p); cbn [y_dec y_pos]|].
      * exact C2.
      * unfold p at 1. rewrite <- P. rewrite Lp. unfold p. rewrite P. destruct (N.le_gt_cases q (len b - (off + k))) as [M | M]; [rewrite N.min_l by exact M; reflexivity|].
        rewrite N.min_r by lia. rewrite !takeN_all by (rewrite len_dropN; lia). reflexivity.
      * lia.
      * lia.
      * cbn [y_next y_eof]. split; [exact Y|]. split; [exact O2|]. split; [exact I2 | lia].
Qed.

Lemma answer_right : forall fuel y k m, where_ y k m -> (m <= fuel)%nat -> y_eof y = false -> okay (y_next y) -> k < n ->
  right (y_next y) (answer env hash b fuel d y off n (slice_at k)).
Proof.
  induction fuel as [|fuel IH]; intros y k m W F Y O K.
  - exfalso. destruct W; lia.
  - cbn [answer]. unfold sync_step. rewrite Y.
    assert (FIN : forall s', bare s' -> off + k = len b ->
      right (y_next y) (let! (r, y0) := Ok (Y_FINISHED, mkSync s' (y_pos y) true (y_next y)) in
        match r with
        | Y_FINISHED => if negb (len (slice_at k) <? n) then Abort
                        else let! d := put_data d off (slice_at k ++ repeat 0 (N.to_nat (n - len (slice_at k)))) in Ok (d, y0)
        | _ => Abort end)).
    { intros s' B E. cbn [bind]. rewrite slice_len by lia. destruct (k <? n) eqn:Z; [|apply N.ltb_ge in Z; lia]. cbn [negb].
      assert (D : slice_at k ++ repeat 0 (N.to_nat (n - k)) = device_read b off n).
      { rewrite device_read_slice. unfold slice_at. assert (L : takeN n (dropN off b) = takeN k (dropN off b)) by (rewrite !takeN_all by (rewrite len_dropN; lia); reflexivity).
        rewrite L. rewrite len_takeN, len_dropN. rewrite N.min_l by lia. reflexivity. }
      rewrite Hput. 2:{ rewrite len_app, slice_len by lia. unfold len. rewrite repeat_length. lia. }
      cbn [bind]. rewrite D. left. eexists. split; [reflexivity|]. split; [exact B|]. split; [exact O | apply later_refl]. }
    assert (REQ : forall s', AB s' -> d_buf (s_d s') = [] -> d_eof (s_d s') = false -> y_pos y = off + k -> off + k <= len b ->
      (N.to_nat (2 * (len b - (off + k))) + length (y_next y) + 3 <= S fuel)%nat ->
      right (y_next y) (let! (r, y0) := sync_request b y s' in
        match r with Y_STEP | Y_POLL | Y_FOUND | Y_NOT_FOUND => answer env hash b fuel d y0 off n (slice_at k) | _ => Abort end) /\
      (forall r y0, sync_request b y s' = Ok (r, y0) -> r = Y_STEP \/ r = Y_POLL)).
    { intros s' A Bu Eo P L M. destruct (request_right y k s' Y O A Bu Eo P L) as [(e & -> & I) | (r & y' & m' & -> & R & W' & Y' & O' & I' & M')].
      - split; [right; exists e; split; [reflexivity | exact I] | discriminate].
      - split; [|intros r0 y0 H; inversion H; subst; exact R]. cbn [bind].
        assert (G : right (y_next y) (answer env hash b fuel d y' off n (slice_at k))).
        { apply (right_later (y_next y')); [exact I'|]. apply (IH y' k m'); [exact W' | lia | exact Y' | exact O' | exact K]. }
        destruct R as [-> | ->]; exact G. }
    destruct W as [W Hk Ho | W Hk Hp Ho | W We Hk | W We Hp Hl | p W Wp Hp Hl | W W1 W2 Hk Ho].
    + destruct (step_Pr (y_dec y) off ltac:(lia) W) as (s' & -> & S' & G). cbn [bind]. rewrite G. cbn [bind].
      apply (right_later (y_next (mkSync s' off false (y_next y)))); [apply later_refl|]. apply (IH (mkSync s' off false (y_next y)) k (N.to_nat (2 * (len b - off)) + length (y_next y) + 3)%nat); [|lia|reflexivity|exact O|exact K].
      exact (w_seek (mkSync s' off false (y_next y)) k S' Hk eq_refl Ho).
    + destruct (step_Sk (y_dec y) off W) as (s' & -> & A' & B' & E'). cbn [bind].
      destruct (REQ s' A' B' E') as [G R]; [lia | lia | subst k; rewrite N.add_0_r; lia |].
      destruct (sync_request b y s') as [[[] y0] | | |] eqn:Q; cbn [bind] in *; try exact G; destruct (R _ _ eq_refl); discriminate.
    + destruct (step_AB (y_dec y) W) as (s' & -> & B' & _). rewrite We. cbn [bind]. exact (FIN s' B' Hk).
    + destruct (step_AB (y_dec y) W) as (s' & -> & B' & A'). rewrite We. cbn [bind]. destruct (A' We) as (A2 & Bu & E').
      destruct (REQ s' A2 Bu E' Hp Hl F) as [G R].
      destruct (sync_request b y s') as [[[] y0] | | |] eqn:Q; cbn [bind] in *; try exact G; destruct (R _ _ eq_refl); discriminate.
    + destruct (step_CC (y_dec y) p W) as (s' & -> & A' & E' & Pp). cbn [bind y_dec]. rewrite Pp. cbn [bind].
      assert (Np : p <> []) by (destruct W as (_ & _ & _ & _ & _ & X & _); exact X).
      rewrite slice_len by lia.
      assert (SP : slice_at k ++ p = slice_at (k + len p)) by (rewrite Wp at 1; apply slice_plus).
      destruct ((k =? 0) && (n <=? len p)) eqn:Z.
      * apply andb_prop in Z. destruct Z as [Z1 Z2]. apply N.eqb_eq in Z1. apply N.leb_le in Z2. subst k.
        rewrite N.min_r by exact Z2. assert (Q : takeN n p = device_read b off n).
        { rewrite <- device_full by lia. rewrite Wp, N.add_0_r, takeN_takeN. f_equal. lia. }
        rewrite Hput by (rewrite len_takeN; lia). cbn [bind]. rewrite Q. left. eexists. split; [reflexivity|]. split; [exact (proj1 A')|]. split; [exact O | apply later_refl].
      * rewrite SP. rewrite slice_len by lia. destruct (n <=? k + len p) eqn:Z2.
        -- apply N.leb_le in Z2. assert (Q : takeN n (slice_at (k + len p)) = device_read b off n) by (rewrite full_read by exact Z2; apply device_full; lia).
           rewrite Hput by (rewrite len_takeN, slice_len; lia). cbn [bind]. rewrite Q. left. eexists. split; [reflexivity|].
           split; [exact (proj1 A')|]. split; [exact O | apply later_refl].
        -- apply N.leb_gt in Z2. apply (right_later (y_next (mkSync s' (y_pos y) false (y_next y)))); [apply later_refl|]. apply (IH (mkSync s' (y_pos y) false (y_next y)) (k + len p) (N.to_nat (2 * (len b - (off + (k + len p)))) + length (y_next y) + 3)%nat).
           ++ refine (w_ab (mkSync s' (y_pos y) false (y_next y)) (k + len p) A' E' _ _); cbn [y_pos]; lia.
           ++ rewrite N.add_assoc. lia.
           ++ reflexivity.
           ++ exact O.
           ++ exact Z2.
    + assert (St : sstep env hash (y_dec y) = Ok (SR R_FINISHED, track (y_dec y) R_FINISHED (s_d (y_dec y)))).
      { unfold sstep. rewrite W1. unfold decoder_step. rewrite W2. reflexivity. }
      rewrite St. cbn [bind]. apply FIN; [|lia]. destruct W as (nn & x & N1 & N2 & N3 & N4 & X1 & X2).
      unfold track. rewrite N.ltb_irrefl. rewrite X1. exists nn, x. cbn. auto 8.
Qed.
End One.

(** ** All requests *)
Definition zeros : list N := repeat 0 28.
Lemma magic_zeros d : n_last d = zeros -> last_magic d = 0.
Proof. unfold last_magic. intros ->. reflexivity. Qed.

Record parts (l : list N) (r : request) : Prop := {
  p_magic : be_dec (takeN 4 l) = NBD_REQUEST_MAGIC;
  p_type : be_dec (takeN 4 (dropN 4 l)) = NBD_CMD_READ;
  p_handle : takeN 8 (dropN 8 l) = r_handle r;
  p_from : be_dec (takeN 8 (dropN 16 l)) = r_from r;
  p_size : be_dec (takeN 4 (dropN 24 l)) = r_len r;
  p_total : len l = REQUEST_SIZE }.

Lemma field (pre f post : list N) n k : len pre = n -> len f = k -> takeN k (dropN n (pre ++ f ++ post)) = f.
Proof. intros <- <-. rewrite dropN_app_exact by reflexivity. apply takeN_app_exact. reflexivity. Qed.

Lemma request_parts r : len (r_handle r) = 8 -> r_from r < two64 -> r_len r < 2 ^ 32 -> parts (request_bytes r) r.
Proof.
  intros H F L. unfold request_bytes. rewrite !be_enc_spec.
  assert (E0 : len (be_enc 4 0x25609513) = 4) by (rewrite len_be; reflexivity). assert (E1 : len (be_enc 4 0) = 4) by (rewrite len_be; reflexivity).
  assert (E2 : len (be_enc 8 (r_from r)) = 8) by (rewrite len_be; reflexivity). assert (E3 : len (be_enc 4 (r_len r)) = 4) by (rewrite len_be; reflexivity).
  set (a := be_enc 4 0x25609513) in *. set (c := be_enc 4 0) in *. set (f := be_enc 8 (r_from r)) in *. set (g := be_enc 4 (r_len r)) in *.
  constructor.
  - rewrite takeN_app_exact by exact E0. reflexivity.
  - rewrite (field a c (r_handle r ++ f ++ g) 4 4 E0 E1). reflexivity.
  - rewrite (app_assoc a c). apply (field (a ++ c) (r_handle r) (f ++ g)); [rewrite len_app; lia | exact H].
  - rewrite (app_assoc a c), (app_assoc (a ++ c)). rewrite (field ((a ++ c) ++ r_handle r) f g 16 8); [|rewrite !len_app; lia | exact E2]. apply be_dec_enc. exact F.
  - rewrite (app_assoc a c), (app_assoc (a ++ c)), (app_assoc ((a ++ c) ++ _)). rewrite <- (app_nil_r g) at 1. rewrite (field (((a ++ c) ++ r_handle r) ++ f) g [] 24 4); [|rewrite !len_app; lia | exact E3].
    apply be_dec_enc. exact L.
  - rewrite !len_app. unfold REQUEST_SIZE. lia.
Qed.

Lemma valid_inside r : valid_request b r -> r_from r < len b.
Proof.
  intros (_ & _ & P & M & E). unfold device_bytes in E. pose proof (round512 (len b + 511)) as [Q1 Q2].
  pose proof (N.div_mod (r_from r) 512 ltac:(lia)) as D. rewrite M in D.
  assert (r_from r / 512 < (len b + 511) / 512) by nia. nia.
Qed.

(** One request, from the socket to the socket. *)
Definition one fuel d y p : res (nbd * csync) :=
  let! (_, d) := nbd_step d p in let! off := request_offset d in let! n := request_size d in let! y := sync_seek b y off in answer env hash b fuel d y off n [].
Lemma one_right fuel d y r : n_last d = zeros -> bare (y_dec y) -> okay (y_next y) -> valid_request b r -> (N.to_nat (2 * len b) + length (y_next y) + 4 <= fuel)%nat ->
  (exists d' y', one fuel d y (request_bytes r) = Ok (d', y') /\ n_last d' = zeros /\ n_out d' = n_out d ++ reply b r /\
     bare (y_dec y') /\ okay (y_next y') /\ later (y_next y') (y_next y)) \/
  (exists e, one fuel d y (request_bytes r) = Err e /\ In (Err e) (y_next y)).
Proof.
  intros Z B O V F. pose proof (valid_inside r V) as I. destruct V as (V1 & V2 & V3 & V4 & V5).
  assert (U : len b < two64) by (unfold UINT64_MAX in Hb; unfold two64; lia).
  destruct (request_parts r V1 ltac:(lia) V2) as [P1 P2 P3 P4 P5 P6]. set (l := request_bytes r) in *. clearbody l.
  unfold one, nbd_step. rewrite (magic_zeros d Z). change (0 =? 0) with true. cbn [negb]. rewrite P6, P1, P2, P5, !N.eqb_refl. cbn [negb].
  destruct (r_len r =? 0) eqn:E0; [apply N.eqb_eq in E0; lia|]. cbn [bind].
  set (d1 := mkNbd (n_size d) (n_open d) (l ++ dropN REQUEST_SIZE (n_last d)) (n_out d)).
  assert (L1 : n_last d1 = l). { unfold d1. cbn [n_last]. rewrite Z. change (dropN REQUEST_SIZE zeros) with (@nil N). apply app_nil_r. }
  unfold request_offset, request_size, last_magic. rewrite L1, P1. change (NBD_REQUEST_MAGIC =? 0) with false. cbn [bind]. rewrite P4, P5.
  unfold sync_seek. destruct (r_from r =? UINT64_MAX) eqn:E1; [apply N.eqb_eq in E1; lia|].
  destruct (seek_bare (y_dec y) (r_from r) B ltac:(lia)) as (s' & -> & B' & P & _). cbn [bind].
  set (sent := fun data => mkNbd (n_size d1) (n_open d1) (repeat 0 28) (n_out d1 ++ (be_enc 4 NBD_REPLY_MAGIC ++ be_enc 4 0 ++ r_handle r) ++ data)).
  pose proof (answer_right d1 (r_from r) (r_len r) sent ltac:(lia)) as A.
  assert (HP : forall data, len data = r_len r -> put_data d1 (r_from r) data = Ok (sent data)).
  { intros data Hd. unfold put_data, last_magic. rewrite Hd, E0, L1, P1. change (NBD_REQUEST_MAGIC =? 0) with false. cbv iota.
    rewrite P4, P5, P3, !N.eqb_refl. reflexivity. }
  specialize (A V3 HP fuel (mkSync s' (y_pos y) false (y_next y)) 0 _ (w_prep _ (mkSync s' (y_pos y) false (y_next y)) 0 (P I) eq_refl I)).
  cbn [y_next y_eof] in A. specialize (A ltac:(lia) eq_refl O V3). unfold slice_at in A. rewrite takeN_0 in A.
  destruct A as [(y' & A1 & A2 & A3 & A4) | (e & A1 & A2)]; [left|right].
  - exists (sent (device_read b (r_from r) (r_len r))), y'. split; [exact A1|]. split; [reflexivity|]. split; [|auto].
    unfold sent, reply. cbn [n_out]. rewrite !be_enc_spec. rewrite <- !app_assoc. reflexivity.
  - exists e. split; [exact A1 | exact A2].
Qed.

Lemma serve_right fuel : forall rs d y, n_last d = zeros -> bare (y_dec y) -> okay (y_next y) -> Forall (valid_request b) rs ->
  (N.to_nat (2 * len b) + length (y_next y) + 4 <= fuel)%nat ->
  serve env hash b fuel d y (map request_bytes rs) = (Ok tt, n_out d ++ concat (map (reply b) rs)) \/
  (exists e k, In (Err e) (y_next y) /\ serve env hash b fuel d y (map request_bytes rs) = (Err e, n_out d ++ concat (map (reply b) (firstn k rs)))).
Proof.
  induction rs as [|r rs IH]; intros d y Z B O V F; cbn [map serve].
  - left. cbn [concat map]. rewrite app_nil_r. reflexivity.
  - inversion V as [|? ? V1 V2]; subst. change (let! (_, d0) := nbd_step d (request_bytes r) in _) with (one fuel d y (request_bytes r)).
    destruct (one_right fuel d y r Z B O V1 F) as [(d' & y' & -> & Z' & E' & B' & O' & L') | (e & -> & I)].
    + assert (LL : (length (y_next y') <= length (y_next y))%nat) by (destruct L' as [p ->]; rewrite app_length; lia).
      destruct (IH d' y' Z' B' O' V2 ltac:(lia)) as [-> | (e & k & I & ->)]; [left | right; exists e, (S k)]; rewrite E'; cbn [map concat firstn];
        [rewrite app_assoc; reflexivity|].
      split; [exact (later_in _ _ L' _ I)|]. rewrite app_assoc. reflexivity.
    + right. exists e, 0%nat. split; [exact I|]. cbn [firstn map concat]. rewrite app_nil_r. reflexivity.
Qed.

End Serve.

Lemma mkdev_right env hash b fuel next rs : 0 < len b -> len b < two64 - 512 -> okay next -> Forall (valid_request b) rs ->
  (N.to_nat (2 * len b) + length next + 4 <= fuel)%nat ->
  mkdev env hash b fuel 0x8000 next (map request_bytes rs) = (Ok tt, concat (map (reply b) rs)) \/
  (exists e k, In (Err e) next /\ mkdev env hash b fuel 0x8000 next (map request_bytes rs) = (Err e, concat (map (reply b) (firstn k rs)))).
Proof.
  intros P L O V F. unfold mkdev.
  assert (S : exists s, sdec_new 0x8000 = Ok s /\ bare b (set_archive_size s (len b))).
  { eexists. split; [reflexivity|]. eexists. eexists. split; [reflexivity|]. split; [reflexivity|]. split; [reflexivity|]. split; [reflexivity|]. split; reflexivity. }
  destruct S as (s & -> & B). cbn [bind].
  assert (D : device_size b = device_bytes b).
  { unfold device_size. rewrite N.mod_small by lia. rewrite mask512 by lia. reflexivity. }
  assert (D1 : (device_size b =? 0) = false).
  { rewrite D. apply N.eqb_neq. unfold device_bytes. pose proof (round512 (len b + 511)). lia. }
  unfold set_size. rewrite D1. assert (D2 : N.land (device_size b) 511 = 0).
  { rewrite D. change 511 with (N.ones 9). rewrite N.land_ones. unfold device_bytes. apply N.mod_mul. discriminate. }
  rewrite D2. change (0 =? 0) with true. cbn [negb n_open nbd_new bind]. unfold nbd_open. cbn [n_open n_size]. rewrite D1. cbn [bind].
  set (d := mkNbd _ true _ _). set (y := mkSync _ 0 false next).
  assert (U : len b < UINT64_MAX) by (unfold UINT64_MAX; unfold two64 in L; lia).
  exact (serve_right env hash b U fuel rs d y eq_refl B O V F).
Qed.
