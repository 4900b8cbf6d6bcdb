(** Model of src/cautil.c: classification of locators, file:// URLs, suffixes. A C string is the list of its bytes without the
    terminating NUL; s[i] is [at_ s i], which is 0 at the end. *)
From Verif Require Import Base.
Local Open Scope N_scope.

Definition at_ (s : list N) (i : N) : N := nth (N.to_nat i) s 0.

(** util.h:314, 415-424: the character sets. *)
Definition lower (c : N) : bool := (97 <=? c) && (c <=? 122).
Definition upper (c : N) : bool := (65 <=? c) && (c <=? 90).
Definition digit (c : N) : bool := (48 <=? c) && (c <=? 57).
Definition url_protocol (c : N) : bool := lower c || digit c || existsb (N.eqb c) [43; 46; 45].           (* + . - *)
Definition hostname (c : N) : bool := lower c || upper c || digit c || existsb (N.eqb c) [45; 95; 46; 37]. (* - _ . % *)
Definition url_host (c : N) : bool := hostname c || existsb (N.eqb c) [64; 58; 91; 93].                    (* @ : [ ] *)

(** strspn(3) *)
Fixpoint strspn (set : N -> bool) (s : list N) : N :=
  match s with c :: s => if set c then 1 + strspn set s else 0 | [] => 0 end.

(** util.h:436-443 startswith: what follows the prefix. *)
Fixpoint startswith (s p : list N) {struct p} : option (list N) :=
  match p, s with
  | [], _ => Some s
  | c :: p, d :: s => if c =? d then startswith s p else None
  | _ :: _, [] => None
  end.

(** cautil.c:10-32 ca_is_definitely_path *)
Definition ca_is_definitely_path (s : list N) : bool :=
  if at_ s 0 =? 47 then true
  else if at_ s 0 =? 46 then
    if at_ s 1 =? 0 then true
    else if at_ s 1 =? 47 then true
    else (at_ s 1 =? 46) && (at_ s 2 =? 0)
  else false.

Definition colon_slash_slash : list N := [58; 47; 47].

(** cautil.c:34-69 ca_is_url. On the empty string strchr() finds the NUL in its set, and s + 1 is behind the string:
    [UB]. *)
Definition ca_is_url (s : list N) : res bool :=
  if ca_is_definitely_path s then Ok false
  else match s with
  | [] => UB
  | c :: s1 =>
      if negb (lower c) then Ok false
      else match startswith (dropN (strspn url_protocol s1) s1) colon_slash_slash with
           | None => Ok false
           | Some e =>
               let k := strspn url_host e in
               if k <=? 0 then Ok false
               else Ok (existsb (N.eqb (at_ e k)) [47; 59; 63; 0])
           end
  end.

(** cautil.c:71-107 ca_is_ssh_path *)
Definition ca_is_ssh_path (s : list N) : bool :=
  if ca_is_definitely_path s then false
  else
    let n := strspn hostname s in
    if n <=? 0 then false
    else if at_ s n =? 64 then
      let s2 := dropN (n + 1) s in
      let k := strspn hostname s2 in
      if k <=? 0 then false
      else if negb (at_ s2 k =? 58) then false
      else negb (len (dropN (k + 1) s2) =? 0)
    else if at_ s n =? 58 then negb (len (dropN (n + 1) s) =? 0)
    else false.

Inductive locator_class := LOCATOR_URL | LOCATOR_SSH | LOCATOR_PATH | LOCATOR_INVALID.

(** cautil.c:109-120 ca_classify_locator *)
Definition ca_classify_locator (s : list N) : res locator_class :=
  match s with
  | [] => Ok LOCATOR_INVALID
  | _ =>
      let! u := ca_is_url s in
      if u then Ok LOCATOR_URL else Ok (if ca_is_ssh_path s then LOCATOR_SSH else LOCATOR_PATH)
  end.

(** util.c:413-425 unhexchar *)
Definition unhexchar (c : N) : option N :=
  if digit c then Some (c - 48)
  else if (97 <=? c) && (c <=? 102) then Some (c - 97 + 10)
  else if (65 <=? c) && (c <=? 70) then Some (c - 65 + 10)
  else None.

(** cautil.c:151-168, the loop of ca_strip_file_url; [skip] is what is left of f += 2. *)
Fixpoint unescape (skip : nat) (f : list N) : list N :=
  match f with
  | [] => []
  | c :: f' =>
      match skip with
      | S k => unescape k f'
      | O =>
          match (if c =? 37 then unhexchar (at_ f' 0) else None), (if c =? 37 then unhexchar (at_ f' 1) else None) with
          | Some a, Some b => N.lor (N.shiftl a 4) b :: unescape 2 f'
          | _, _ => c :: unescape 0 f'
          end
      end
  end.

(** The C string in a buffer: all up to the first NUL. *)
Fixpoint cstr (s : list N) : list N :=
  match s with [] => [] | c :: s => if c =? 0 then [] else c :: cstr s end.

Definition file_url : list N := [102; 105; 108; 101; 58; 47; 47].                   (* file:// *)
Definition localhost_slash : list N := [108; 111; 99; 97; 108; 104; 111; 115; 116; 47]. (* localhost/ *)

(** cautil.c:122-170 ca_strip_file_url *)
Definition ca_strip_file_url (p : list N) : list N :=
  match startswith p file_url with
  | None => p
  | Some e =>
      if at_ e 0 =? 47 then cstr (unescape 0 e)
      else match startswith e localhost_slash with
           | Some e => cstr (unescape 0 (47 :: e))
           | None => p
           end
  end.
