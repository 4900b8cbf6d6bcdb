(** C17: the growing buffer.  Specification: ReallocBufferSpec.v ([fifo], [op_ok]). *)
From Verif Require Import Base ReallocBuffer ReallocBufferProofs ReallocBufferSpec ReallocBufferProofs2.
Local Open Scope N_scope.

(** C17. Whatever calls were made on a fresh buffer, with whatever results of the memory allocator and of
    read() and write(), what the user sees of the buffer is a byte string which has gone through the same calls
    with the same results. *)
Theorem buffer_is_a_byte_string :
  forall (h : list (rb_op * rb_out)) (b : rbuf), rb_history h b ->
  exists q, rb_view b = Ok q /\ fifo_history h q.
Proof. intros h b H. exists (rb_abs b). split; [apply rb_view_ok, (history_inv h), H|apply history_fifo, H]. Qed.
Print Assumptions buffer_is_a_byte_string.

(** C17. Each further call succeeds or fails as the byte string's does; it never violates an assertion nor touches
    memory outside of the block allocated ([Abort] and [UB] are not [Ok]). *)
Theorem buffer_call_refines :
  forall (h : list (rb_op * rb_out)) (b : rbuf) (o : rb_op), rb_history h b -> op_ok o ->
  exists q r b' q', rb_view b = Ok q /\ rb_step b o = Ok (r, b') /\ rb_view b' = Ok q' /\ fifo o q r q'.
Proof.
  intros h b o H Ho. pose proof (history_inv _ _ H) as I. destruct (step_ok b o I Ho) as (r & b' & S & I' & F).
  exists (rb_abs b), r, b', (rb_abs b'). split; [apply rb_view_ok, I|]. split; [exact S|]. split; [apply rb_view_ok, I'|exact F].
Qed.
Print Assumptions buffer_call_refines.

(** C17. The live range stays in the allocation. *)
Theorem buffer_range_in_allocation :
  forall (h : list (rb_op * rb_out)) (b : rbuf), rb_history h b ->
  rb_start b <= rb_end b /\ rb_end b <= rb_alloc b /\ rb_alloc b = len (rb_mem b).
Proof. intros h b H. destruct (history_inv _ _ H) as (A & B & C & _). auto. Qed.
Print Assumptions buffer_range_in_allocation.

(** C17. Appending and advancing is first in, first out: after any number of successful appends and advances that
    remove [n] bytes altogether, the buffer holds what was appended without the first [n] bytes. *)
Fixpoint appended (h : list (rb_op * rb_out)) : list N :=
  match h with [] => [] | (OAppend _ bs, RPtr) :: h => bs ++ appended h | _ :: h => appended h end.
Fixpoint advanced (h : list (rb_op * rb_out)) : N :=
  match h with [] => 0 | (OAdvance n, RInt 0) :: h => n + advanced h | _ :: h => advanced h end.
Definition queue_op (o : rb_op) : bool := match o with OAppend _ _ | OAdvance _ | OMemchr _ | OFrom _ => true | _ => false end.

Lemma appended_app h h' : appended (h ++ h') = appended h ++ appended h'.
Proof. induction h as [|[o r] h IH]; [reflexivity|]. cbn [app appended]. destruct o; try exact IH. destruct r; try exact IH.
  rewrite IH. apply app_assoc. Qed.
Lemma advanced_app h h' : advanced (h ++ h') = advanced h + advanced h'.
Proof. induction h as [|[o r] h IH]; [reflexivity|]. cbn [app advanced]. destruct o; try exact IH. destruct r as [| |z| | |]; try exact IH.
  destruct z; [|exact IH]. rewrite IH. lia. Qed.

Lemma fifo_queue h q : fifo_history h q -> forallb (fun x => queue_op (fst x)) h = true ->
  advanced h <= len (appended h) /\ q = dropN (advanced h) (appended h).
Proof.
  induction 1 as [|h q o r q' _ IH F]; [intros _; split; [cbn; lia|reflexivity]|].
  rewrite forallb_app. intros Hq. apply andb_true_iff in Hq as [Hq Ho]. cbn [forallb fst] in Ho. rewrite andb_true_r in Ho.
  destruct (IH Hq) as [L E]. rewrite appended_app, advanced_app. destruct o; try discriminate Ho; cbn [fifo] in F.
  - destruct F as [(-> & -> & _)|(-> & ->)]; cbn [appended advanced]; rewrite ?app_nil_r, N.add_0_r.
    + auto.
    + rewrite len_app. split; [lia|]. rewrite dropN_app_le by exact L. rewrite <- E. reflexivity.
  - destruct F as [(L' & -> & Eq)|(_ & -> & ->)]; cbn [appended advanced]; rewrite ?app_nil_r, ?N.add_0_r; [|auto].
    assert (Eq' : q' = dropN n q).
    { rewrite <- (takeN_dropN n q) in Eq at 1. apply app_inv_head in Eq. congruence. }
    rewrite Eq', E, dropN_dropN. rewrite E, len_dropN in L'. split; [lia|]. f_equal. lia.
  - destruct F as [-> F]. cbn [appended advanced]. rewrite app_nil_r, N.add_0_r. auto.
  - destruct F as [-> F]. cbn [appended advanced]. rewrite app_nil_r, N.add_0_r. auto.
Qed.

Theorem buffer_first_in_first_out :
  forall (h : list (rb_op * rb_out)) (b : rbuf), rb_history h b ->
  forallb (fun x => queue_op (fst x)) h = true ->
  rb_view b = Ok (dropN (advanced h) (appended h)).
Proof.
  intros h b H Hq. destruct (buffer_is_a_byte_string h b H) as (q & V & F). rewrite V. f_equal. apply (fifo_queue h q F Hq).
Qed.
Print Assumptions buffer_first_in_first_out.

(** The hypotheses are met by a history which grows the buffer twice, once with a non-zero start. *)
Definition ex_env : env := mkEnv true (fun i => N.of_nat i mod 256) 16.
Definition ex_ops : list rb_op :=
  [OAppend ex_env [1;2;3;4;5;6;7;8;9;10]; OAdvance 3; OAppend ex_env (repeat 7 25); OMemchr 9; OAdvance 100; OAppend ex_env (repeat 8 60)].
Fixpoint run_ops (b : rbuf) (h : list (rb_op * rb_out)) (ops : list rb_op) : option (list (rb_op * rb_out) * rbuf) :=
  match ops with
  | [] => Some (h, b)
  | o :: ops => match rb_step b o with Ok (r, b') => run_ops b' (h ++ [(o, r)]) ops | _ => None end
  end.
Lemma run_ops_history ops : forall b h h' b', rb_history h b -> Forall op_ok ops -> run_ops b h ops = Some (h', b') -> rb_history h' b'.
Proof.
  induction ops as [|o ops IH]; cbn [run_ops]; intros b h h' b' H F E; [injection E as <- <-; exact H|].
  apply Forall_cons_iff in F as [Fo F]. destruct (rb_step b o) as [[r b2]| | |] eqn:S; try discriminate.
  eapply IH; [|exact F|exact E]. eapply RH_step; eassumption.
Qed.
Example c17_case : exists h b, rb_history h b /\ length h = 6%nat /\ forallb (fun x => queue_op (fst x)) h = true /\
  map snd h = [RPtr; RInt 0; RPtr; RInt 5; RError EINVAL; RPtr] /\ rb_alloc b = 96 /\
  rb_view b = Ok ([4;5;6;7;8;9;10] ++ repeat 7 25 ++ repeat 8 60).
Proof.
  destruct (run_ops rb_init [] ex_ops) as [[h b]|] eqn:E; [|vm_compute in E; discriminate E].
  exists h, b. split.
  - eapply run_ops_history; [constructor| |exact E]. unfold ex_ops.
    assert (G : good_env ex_env) by (exists 4; split; [lia|reflexivity]).
    repeat constructor; try exact G; vm_compute; reflexivity.
  - vm_compute in E. assert (Eh : Some (h, b) = Some (h, b)) by reflexivity. rewrite <- E in Eh at 1. injection Eh as <- <-.
    repeat split; vm_compute; reflexivity.
Qed.
