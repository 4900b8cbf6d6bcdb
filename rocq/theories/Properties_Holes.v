(** Writing files with holes in them (C49). *)
From Coq Require Import Lia.
From Verif Require Import Base Holes HolesProofs.
Local Open Scope N_scope.

(** C49. However many bytes each write takes, whether or not the file system can make holes and whether or not the file can be seeked, and whatever the file
    held before: if it succeeds, the bytes given are in the file, one after the other from the position on, the position is behind them,
    and nothing else in the file changed. If a call fails, an error is returned and nothing before the position changed. If none fails, it succeeds. *)
Theorem write_with_holes s p r s' :
  s_pos s <= len (s_data s) -> (s_seek s = false -> s_pos s = len (s_data s)) ->
  loop_write_with_holes s p = (r, s') ->
  ((exists n, r = Ok n /\
              s_data s' = takeN (s_pos s) (s_data s) ++ p ++ dropN (s_pos s + len p) (s_data s) /\
              s_pos s' = s_pos s + len p) \/
   (exists e, r = Err e)) /\
  takeN (s_pos s) (s_data s') = takeN (s_pos s) (s_data s) /\
  (s_next s = [] -> s_pos s + len p <= OFF_MAX -> exists n, r = Ok n).
Proof.
  intros H1 H2 E. pose proof (holes_fine s p (conj H1 H2)) as W. rewrite E in W.
  destruct W as (W1 & W2 & W3 & W4 & W5). destruct r as [n | e | |]; try contradiction.
  - split; [left; exists n; split; [reflexivity | exact W5]|]. split; [exact W4|]. intros _ _. exists n. reflexivity.
  - split; [right; exists e; reflexivity|]. split; [exact W4|]. intros K L. specialize (W5 K). lia.
Qed.
Print Assumptions write_with_holes.

(** The same for plain writing; so that holes make no difference. *)
Theorem write_without_holes s p r s' :
  s_pos s <= len (s_data s) -> (s_seek s = false -> s_pos s = len (s_data s)) ->
  loop_write s p = (r, s') ->
  (r = Ok tt /\ s_data s' = takeN (s_pos s) (s_data s) ++ p ++ dropN (s_pos s + len p) (s_data s) /\ s_pos s' = s_pos s + len p) \/
  (exists e, r = Err e).
Proof.
  intros H1 H2 E. pose proof (loop_write_fine s p (conj H1 H2)) as W. rewrite E in W.
  destruct W as (W1 & W2 & W3 & W4 & W5). destruct r as [[] | e | |]; try contradiction.
  - left. split; [reflexivity | exact W5].
  - right. exists e. reflexivity.
Qed.
Print Assumptions write_without_holes.

(** A block counts as zeroes exactly if all its bytes are zero: the trick of comparing a block with itself shifted by sixteen bytes is right. *)
Theorem memeqzero_zeroes p : memeqzero p = true <-> Forall (fun b => b = 0) p.
Proof.
  rewrite memeqzero_ok. unfold all_zero. split.
  - intros ->. unfold zeroes. apply Forall_forall. intros x Hx. apply repeat_spec in Hx. exact Hx.
  - intro F. induction F as [|b q Hb F IH]; [reflexivity|]. apply all_zero_cons. split; [exact Hb | exact IH].
Qed.
Print Assumptions memeqzero_zeroes.

(** 5 bytes, 12000 zeroes and 3 bytes over a file that already holds 6000 bytes, with a write that is cut short: the zeroes in front of the first
    block boundary are written, the only block of nothing but zeroes becomes a hole. *)
Definition holes_data : list N := [1; 2; 3; 4; 5] ++ zeroes 12000 ++ [6; 7; 8].
Definition holes_sink : sink := mkSink (repeat 9 6000) 10 true true [HShort 3].
Example holes_run :
  match loop_write_with_holes holes_sink holes_data with
  | (Ok n, s) => (n =? 4096) && (s_pos s =? 12018) && beq (takeN 16 (s_data s)) (repeat 9 10 ++ [1; 2; 3; 4; 5; 0]) && (len (s_data s) =? 12018)
  | _ => false
  end = true.
Proof. vm_compute. reflexivity. Qed.
