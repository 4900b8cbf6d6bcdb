(** Model of src/util.c: safe_atou, safe_atollu, safe_atollx, of the C library's strtoull() they call, and of the printf()
    conversions %lu, %u and %lx. A C string is the list of its bytes without the terminating NUL. *)
From Verif Require Import Base Locator ParseSize.
Local Open Scope N_scope.

(** The value of a character as a digit: 0-9, a-z, A-Z (C11 7.22.1.4); 36 if it is none. *)
Definition digit_value (c : N) : N :=
  if digit c then c - 48 else if lower c then c - 87 else if upper c then c - 55 else 36.
Definition digit_in (base c : N) : bool := digit_value c <? base.

(** The number a string of digits denotes. *)
Definition number (base : N) (s : list N) : N := fold_left (fun a c => base * a + digit_value c) s 0.

(** C11 7.22.1.4: "0x" or "0X" in front of a hexadecimal digit. *)
Definition hex_prefix (q : list N) : bool :=
  (at_ q 0 =? 48) && ((at_ q 1 =? 120) || (at_ q 1 =? 88)) && digit_in 16 (at_ q 2).

(** strtoull(p, &e, base) for the bases 0 and 16 (C11 7.22.1.4): [None] if there is no number (e == p), else the value,
    what follows, and whether errno is set to ERANGE. A minus sign negates in unsigned arithmetic. *)
Definition strtoull_base (base : N) (p : list N) : option (N * list N * bool) :=
  let q := dropN (strspn isspace p) p in
  let neg := at_ q 0 =? 45 in
  let q := if neg || (at_ q 0 =? 43) then dropN 1 q else q in
  let b := if base =? 0 then (if hex_prefix q then 16 else if at_ q 0 =? 48 then 8 else 10) else base in
  let q := if (b =? 16) && hex_prefix q then dropN 2 q else q in
  let k := strspn (digit_in b) q in
  if k =? 0 then None
  else
    let v := number b (takeN k q) in
    if UINT64_MAX <? v then Some (UINT64_MAX, dropN k q, true)
    else Some ((if neg then (two64 - v) mod two64 else v), dropN k q, false).

(** util.c:795-815 safe_atollu ([base] 0) and util.c:817-837 safe_atollx ([base] 16). *)
Definition safe_ato (base : N) (s : list N) : res N :=
  let s := dropN (strspn blank s) s in
  match strtoull_base base s with
  | None => Err EINVAL
  | Some (l, x, erange) =>
      if erange then Err ERANGE
      else if negb (len x =? 0) then Err EINVAL
      else if at_ s 0 =? 45 then Err ERANGE
      else Ok l
  end.
Definition safe_atou64 : list N -> res N := safe_ato 0.
Definition safe_atox64 : list N -> res N := safe_ato 16.

(** util.c:762-793 safe_atou: unsigned long has 64 bits, unsigned has 32. *)
Definition safe_atou (s : list N) : res N :=
  let! l := safe_ato 0 s in
  if l mod two32 =? l then Ok l else Err ERANGE.

(** printf("%lu") and printf("%lx"): the digits of [n], the last one first; [fuel] bounds their number. *)
Definition digit_char (d : N) : N := if d <? 10 then 48 + d else 87 + d.
Fixpoint digits_of (fuel : nat) (base n : N) : list N :=
  match fuel with
  | O => []
  | S fuel => (if n <? base then [] else digits_of fuel base (n / base)) ++ [digit_char (n mod base)]
  end.
Definition print (base n : N) : list N := digits_of (S (N.to_nat (N.log2 n))) base n.
Definition dec : N -> list N := print 10.
Definition hex : N -> list N := print 16.
