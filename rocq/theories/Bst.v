(** Model of src/camakebst.c (search tree layout), of the binary search over goodbye tables in
    src/cadecoder.c:1354-1427, and of ca_name_table_make_bst (src/canametable.c:307-338). *)
From Verif Require Import Base.
From Coq Require Import Sorting.Permutation Sorting.Sorted.
Local Open Scope N_scope.

Section Bst.
Context {A : Type}.

(** The output array; [None] is memory not written to yet. *)
Definition array := N -> option A.
Definition upd (o : array) (i : N) (x : A) : array := fun j => if j =? i then Some x else o j.

(** camakebst.c:18-65 make_bst_inner. [fuel] is the recursion depth left, the C recursion is bounded by [e];
    exhaustion is an [Abort] (proved unreachable). Reading outside of the input is [UB].
    The parameter 'size' only scales addresses. Indices [i*2+2] can't wrap as i < n <= 2^63 (the
    input is in memory). *)
Fixpoint make_bst_inner (fuel : nat) (input : list A) (n e : N) (o : array) (i : N) : res array :=
  if n =? 0 then Ok o
  else
    match fuel with
    | O => Abort
    | S fuel =>
      if e =? 0 then Abort else
      let p := 2 ^ (e - 1) in
      let q := 2 ^ e in
      let k := if p - 1 + p / 2 <=? n then (q - 2) / 2
               else let v := p - 1 + p / 2 - n in (q - 2) / 2 - v in
      match nth_error input (N.to_nat k) with
      | None => UB
      | Some x =>
        let! o := make_bst_inner fuel input k (e - 1) (upd o i x) (i * 2 + 1) in
        make_bst_inner fuel (skipn (N.to_nat (k + 1)) input) (n - k - 1) (e - 1) o (i * 2 + 2)
      end
    end.

(** camakebst.c:67-83 ca_make_bst. __builtin_clzl(0) is undefined. *)
Definition ca_make_bst (input : list A) (o : array) : res array :=
  let n := len input in
  if n =? 0 then UB
  else make_bst_inner (S (N.to_nat (N.log2 n + 1))) input n (N.log2 n + 1) o 0.

(** The first [n] elements of an array as a list, if all are written. *)
Fixpoint array_list (o : array) (i : N) (n : nat) : option (list A) :=
  match n with
  | O => Some []
  | S n => match o i, array_list o (i + 1) n with
           | Some x, Some l => Some (x :: l)
           | _, _ => None
           end
  end.

Variable hash : A -> N.

(** cadecoder.c:1354-1393 format_goodbye_search_inner: the item found, and the remaining *idx. [fuel]
    bounds the depth (i at least doubles each time); exhaustion is [Abort]. *)
Fixpoint search_inner (fuel : nat) (table : list A) (h i idx : N) : res (option A * N) :=
  match nth_error table (N.to_nat i) with
  | None => Ok (None, idx)
  | Some x =>
    match fuel with
    | O => Abort
    | S fuel =>
      let p := hash x in
      if (p =? h) && (idx =? 0) then Ok (Some x, idx)
      else
        let idx := if p =? h then idx - 1 else idx in
        let! (f, idx) := (if h <=? p then search_inner fuel table h (2 * i + 1) idx else Ok (None, idx)) in
        match f with
        | Some y => Ok (Some y, idx)
        | None => if p <=? h then search_inner fuel table h (2 * i + 2) idx else Ok (None, idx)
        end
    end
  end.

(** cadecoder.c:1410-1427 format_goodbye_search, for a given name hash. *)
Definition goodbye_search (table : list A) (h idx : N) : res (option A) :=
  let! (f, _) := search_inner (S (N.to_nat (N.log2 (len table + 1)))) table h 0 idx in Ok f.
End Bst.
Arguments array : clear implicits.

(** canametable.h: struct CaNameItem *)
Record name_item := mkNameItem { ni_hash : N; ni_start : N; ni_end : N }.

(** canametable.c:289-305 name_table_compare: [true] if a may precede b. *)
Definition name_item_le (a b : name_item) : bool :=
  (ni_hash a <? ni_hash b) || ((ni_hash a =? ni_hash b) && (ni_start a <=? ni_start b)).

Section NameTable.
(** libc's qsort(): see the hypotheses in the theorems. *)
Variable qsort : list name_item -> list name_item.
(** canametable.c:307-338 ca_name_table_make_bst on the items; the rest of the table (entry_offset) is copied, the
    parent is not.  *)
Definition name_table_make_bst (items : list name_item) : res (list name_item) :=
  if len items <=? 1 then Ok items
  else
    let! o := ca_make_bst (qsort items) (fun _ => None) in
    match array_list o 0 (length items) with Some l => Ok l | None => UB end.
End NameTable.
