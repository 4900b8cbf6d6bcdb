(** C08, C09: goodbye tables. *)
From Verif Require Import Base Bst BstProofs.
From Coq Require Import Sorting.Permutation Sorting.Sorted.
Local Open Scope N_scope.

(** C09. Building the tree from any non-empty array succeeds (no read or write out of bounds, no assertion),
    writes exactly the slots 0..n-1, and these hold a permutation of the input; slots beyond are untouched. *)
Theorem make_bst_permutes :
  forall (A : Type) (input : list A) (o : array A), input <> [] ->
  exists o' l, ca_make_bst input o = Ok o' /\
    Permutation l input /\
    (forall j, (j < length input)%nat -> o' (N.of_nat j) = nth_error l j) /\
    (forall j, len input <= j -> o' j = o j).
Proof.
  intros A input o Hne. destruct (ca_make_bst_ok input o Hne) as (o' & t & E & Hh & Hi & Ho).
  destruct (holds_list o' t (length input) Hh) as (l & _ & Hp & _ & Hn). rewrite Hi in Hp. exists o', l. auto.
Qed.
Print Assumptions make_bst_permutes.

(** C08. Whatever sort qsort() implements: the table made from any directory's items is a permutation of
    them; for each hash value, the successive lookups idx = 0, 1, 2... deliver each item with this hash
    exactly once, in some order, and then report absence. *)
Theorem goodbye_lookup_exact :
  forall (qsort : list name_item -> list name_item) (items : list name_item),
  (forall l, Permutation (qsort l) l) ->
  (forall l, StronglySorted (fun a b => name_item_le a b = true) (qsort l)) ->
  exists table, name_table_make_bst qsort items = Ok table /\ Permutation table items /\
    forall h, exists ms, Permutation ms (filter (fun x => ni_hash x =? h) items) /\
      forall idx, goodbye_search ni_hash table h idx = Ok (nth_error ms (N.to_nat idx)).
Proof. exact name_table_lookup. Qed.
Print Assumptions goodbye_lookup_exact.

(** A sort as required exists, and a table with collisions. *)
Example c08_qsort : (forall l, Permutation (ni_sort l) l) /\
  (forall l, StronglySorted (fun a b => name_item_le a b = true) (ni_sort l)).
Proof. split; [exact ni_sort_perm|exact ni_sort_sorted]. Qed.
Definition c08_items := map (fun p => mkNameItem (fst p) (snd p) (snd p + 9)) [(5,10);(3,20);(5,30);(9,40);(5,50);(1,60);(7,70)].

Example c08_case : exists table, name_table_make_bst ni_sort c08_items = Ok table /\ length table = 7%nat /\
  map (fun idx => match goodbye_search ni_hash table 5 idx with Ok (Some x) => ni_start x | _ => 0 end) [0;1;2;3] = [30; 10; 50; 0].
Proof. eexists. split; [vm_compute; reflexivity|]. split; vm_compute; reflexivity. Qed.
Example c09_case : exists o, ca_make_bst [1;2;3;4;5;6] (fun _ => None) = Ok o /\ map o [0;1;2;3;4;5;6] =
  [Some 4; Some 2; Some 6; Some 1; Some 3; Some 5; None].
Proof. eexists. split; [reflexivity|vm_compute; reflexivity]. Qed.
