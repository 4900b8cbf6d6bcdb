(** Model of src/parse-util.c: parse_size, with the binary64 arithmetic of the fraction computed by Coq's [SpecFloat]. A
    C string is the list of its bytes without the terminating NUL. *)
From Verif Require Import Base Chunker SetSize Locator.
From Coq Require Import Floats.SpecFloat.
Local Open Scope N_scope.

(** util.h:314 WHITESPACE; and isspace(3) in the C locale, which strtoull() uses. *)
Definition blank (c : N) : bool := (c =? 32) || (c =? 9).
Definition isspace (c : N) : bool := (c =? 32) || ((9 <=? c) && (c <=? 13)).

(** The number a string of decimal digits denotes. *)
Definition decimal (s : list N) : N := fold_left (fun a c => 10 * a + (c - 48)) s 0.

(** strtoull(p, &e, 10) of the C library (C11 7.22.1.4): [None] if there is no number (e == p), else the value, what
    follows, and whether errno is set to ERANGE. A minus sign negates in unsigned arithmetic. *)
Definition strtoull (p : list N) : option (N * list N * bool) :=
  let q := dropN (strspn isspace p) p in
  let neg := at_ q 0 =? 45 in
  let q := if neg || (at_ q 0 =? 43) then dropN 1 q else q in
  let k := strspn digit q in
  if k =? 0 then None
  else
    let v := decimal (takeN k q) in
    if UINT64_MAX <? v then Some (UINT64_MAX, dropN k q, true)
    else Some ((if neg then (two64 - v) mod two64 else v), dropN k q, false).

(** parse-util.c:22-31: the suffixes, in the order of the table; and the factors. *)
Definition size_table : list (list N * N) :=
  [([69], 2 ^ 60); ([80], 2 ^ 50); ([84], 2 ^ 40); ([71], 2 ^ 30); ([77], 2 ^ 20); ([75], 2 ^ 10); ([66], 1); ([], 1)].

(** parse-util.c:76-81: the first suffix from start_pos on that fits. Index, factor and what follows the suffix. *)
Fixpoint find_suffix (i : N) (table : list (list N * N)) (e : list N) : option (N * N * list N) :=
  match table with
  | [] => None
  | (s, f) :: table => match startswith e s with Some r => Some (i, f, r) | None => find_suffix (i + 1) table e end
  end.

(** parse-util.c:68-71: frac = l2, divided by ten once per digit. *)
Fixpoint div10 (n : nat) (d : spec_float) : spec_float :=
  match n with O => d | S n => div10 n (SFdiv 53 1024 d (double_of_N 10)) end.

(** parse-util.c:56-74: the fraction and what follows it. *)
Definition parse_fraction (e : list N) : res (spec_float * list N) :=
  if at_ e 0 =? 46 then
    let e := dropN 1 e in
    if digit (at_ e 0) then
      match strtoull e with
      | Some (l2, e2, erange) =>
          if erange then Err ERANGE
          else Ok (div10 (N.to_nat (len e - len e2)) (double_of_N l2), e2)
      | None => Ok (S754_zero false, e)      (* not reached: e starts with a digit *)
      end
    else Ok (S754_zero false, e)
  else Ok (S754_zero false, e).

(** parse-util.c:43-103 parse_size, from one term on; [r] is the sum so far. *)
Fixpoint parse_size_loop (fuel : nat) (start_pos r : N) (p : list N) : res N :=
  match fuel with
  | O => Abort
  | S fuel =>
      let p := dropN (strspn blank p) p in
      if at_ p 0 =? 45 then Err ERANGE
      else match strtoull p with
      | None => Err EINVAL
      | Some (l, e, erange) =>
          if erange then Err ERANGE
          else
            let! (frac, e) := parse_fraction e in
            let e := dropN (strspn blank e) e in
            match find_suffix start_pos (dropN start_pos size_table) e with
            | None => Err EINVAL
            | Some (i, factor, p) =>
                if UINT64_MAX / factor <? (l + (if SFltb (S754_zero false) frac then 1 else 0)) mod two64 then Err ERANGE
                else
                  let! f := size_of_double (SFmul 53 1024 frac (double_of_N factor)) in
                  let tmp := (l * factor + f) mod two64 in
                  if UINT64_MAX - r <? tmp then Err ERANGE
                  else match p with
                       | [] => Ok (r + tmp)
                       | _ => parse_size_loop fuel (i + 1) (r + tmp) p
                       end
            end
      end
  end.

(** parse-util.c:15-106 parse_size. Every term takes at least one byte. *)
Definition parse_size (t : list N) : res N := parse_size_loop (S (length t)) 0 0 t.
