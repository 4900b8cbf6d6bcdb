(** Model of src/camatch.c: patterns of .caexclude files, and of what src/caencoder.c does with them. A C string is the
    list of its bytes without the terminating NUL. Objects are values: reference counting and copy on write
    (ca_match_ref, ca_match_unref, ca_match_make_writable: camatch.c:204-232, 250-283) are left out, as every change of a
    shared object goes to a copy. Allocation never fails. *)
From Verif Require Import Base ArchiveBase FeatureFlags Locator.
Local Open Scope N_scope.

(** camatch.h:12-18 CaMatchType *)
Inductive mtype := POSITIVE | NEGATIVE | INNER.
(** camatch.h:20-34 struct CaMatch *)
Inductive cmatch := CM (type : mtype) (name : list N) (anchored directory_only : bool) (children : list cmatch).

Definition m_type '(CM t _ _ _ _) := t.
Definition m_name '(CM _ n _ _ _) := n.
Definition m_anchored '(CM _ _ a _ _) := a.
Definition m_directory_only '(CM _ _ _ d _) := d.
Definition m_children '(CM _ _ _ _ c) := c.

(** camatch.c:31-42 ca_match_alloc_subtree *)
Definition alloc_subtree : cmatch := CM INNER [] true true [].

(** camatch.c:234-248 ca_match_add_child; nobody else holds a reference where it is called. *)
Definition add_child (m child : cmatch) : cmatch := let '(CM t n a d c) := m in CM t n a d (c ++ [child]).

Definition slash (c : N) : bool := c =? 47.
Definition no_slash_char (c : N) : bool := negb (c =? 47).

(** camatch.c:68-124: the loop of parse_line over the components. The C code hangs each new item below the previous one,
    here the item is made with its child. *)
Fixpoint parse_items (fuel : nat) (type : mtype) (anchored : bool) (p : list N) : res cmatch :=
  match fuel with
  | O => Abort
  | S fuel =>
      let k := strspn no_slash_char p in
      if k =? 0 then Err EINVAL
      else if (k =? 1) && (at_ p 0 =? 46) then Err EINVAL
      else if (k =? 2) && (at_ p 0 =? 46) && (at_ p 1 =? 46) then Err EINVAL
      else
        let name := takeN k p in
        let p := dropN k p in
        let directory_only := at_ p 0 =? 47 in
        let p := dropN (strspn slash p) p in
        match p with
        | [] => Ok (CM type name anchored directory_only [])
        | _ => let! c := parse_items fuel type true p in Ok (CM INNER name anchored directory_only [c])
        end
  end.

(** camatch.c:44-127 parse_line *)
Definition parse_line (parent : cmatch) (line : list N) : res cmatch :=
  let '(type, p) := match line with
                    | 33 :: p => (NEGATIVE, p)
                    | _ => (POSITIVE, line)
                    end in
  let anchored := existsb slash p in
  let p := dropN (strspn slash p) p in
  let! first := parse_items (S (length p)) type anchored p in
  Ok (add_child parent first).

(** camatch.c:179-202 ca_match_new_from_strings; [None] is NULL. *)
Fixpoint new_from_strings (match_ : option cmatch) (l : list (list N)) : res (option cmatch) :=
  match l with
  | [] => Ok match_
  | i :: l =>
      let m := match match_ with None => alloc_subtree | Some m => m end in
      let! m := parse_line m i in
      new_from_strings (Some m) l
  end.

(** util.c:1480-1548 read_line, on what is left of the file: the line, the number of bytes read, what is left. *)
Fixpoint read_line (limit n : N) (f : list N) : res (list N * N * list N) :=
  if limit <=? n then Err ENOBUFS
  else match f with
       | [] => Ok ([], 0, [])
       | c :: f =>
           if (c =? 10) || (c =? 0) then Ok ([], 1, f)
           else let! (l, count, f) := read_line limit (n + 1) f in Ok (c :: l, count + 1, f)
       end.

(** util.h:776 LARGE_LINE_MAX; util.h:314 WHITESPACE *)
Definition LARGE_LINE_MAX : N := 64 * 1024.
Definition white (c : N) : bool := (c =? 32) || (c =? 9).

(** util.c:1550-1568 delete_trailing_chars *)
Fixpoint delete_trailing (s : list N) : list N :=
  match s with
  | [] => []
  | c :: s => match delete_trailing s with [] => if white c then [] else [c] | t => c :: t end
  end.
(** util.c:1570-1576 strstrip *)
Definition strstrip (s : list N) : list N := let s := delete_trailing s in dropN (strspn white s) s.

(** camatch.c:129-177 ca_match_new_from_file, once the file is open; [f] is its content, reading it does not fail. *)
Fixpoint new_from_file_loop (fuel : nat) (match_ : option cmatch) (f : list N) : res (option cmatch) :=
  match fuel with
  | O => Abort
  | S fuel =>
      let! (line, count, f) := read_line LARGE_LINE_MAX 0 f in
      if count =? 0 then Ok match_
      else
        let l := strstrip line in
        match l with
        | [] => new_from_file_loop fuel match_ f
        | 35 :: _ => new_from_file_loop fuel match_ f
        | _ =>
            let m := match match_ with None => alloc_subtree | Some m => m end in
            let! m := parse_line m l in
            new_from_file_loop fuel (Some m) f
        end
  end.
Definition new_from_file (f : list N) : res (option cmatch) := new_from_file_loop (S (length f)) None f.

Definition mtype_eqb (a b : mtype) : bool :=
  match a, b with POSITIVE, POSITIVE | NEGATIVE, NEGATIVE | INNER, INNER => true | _, _ => false end.

(** camatch.c:285-324 ca_match_merge, of two objects *)
Definition merge_nodes (a b : cmatch) : res cmatch :=
  let '(CM ta na aa da ca) := a in
  let '(CM tb nb ab db cb) := b in
  if negb (mtype_eqb ta tb) then Err EDOM
  else if negb (Bool.eqb aa ab) then Err EDOM
  else if negb (Bool.eqb da db) then Err EDOM
  else if negb (beq na nb) then Err EDOM
  else Ok (CM ta na aa da (ca ++ cb)).
Definition merge (a b : option cmatch) : res (option cmatch) :=
  match b with
  | None => Ok a
  | Some b => match a with None => Ok (Some b) | Some a => let! m := merge_nodes a b in Ok (Some m) end
  end.

(** camatch.h:12-18: the values of the enumeration *)
Definition mtype_num (t : mtype) : N := match t with POSITIVE => 0 | NEGATIVE => 1 | INNER => 2 end.
Definition bool_cmp (a b : bool) : comparison :=
  match a, b with false, true => Lt | true, false => Gt | _, _ => Eq end.
Definition lex (a b : comparison) : comparison := match a with Eq => b | _ => a end.

(** camatch.c:326-372 compare_match. The shortcut for identical pointers gives what the comparison gives anyway. *)
Fixpoint compare_match (x y : cmatch) {struct x} : comparison :=
  match x, y with
  | CM tx nx ax dx cx, CM ty ny ay dy cy =>
      lex (mtype_num tx ?= mtype_num ty)
        (lex (strcmp nx ny)
          (lex (bool_cmp ax ay)
            (lex (bool_cmp dx dy)
              ((fix go (cx cy : list cmatch) {struct cx} : comparison :=
                  match cx, cy with
                  | [], [] => Eq
                  | [], _ :: _ => Gt
                  | _ :: _, [] => Lt
                  | x :: cx, y :: cy => lex (compare_match x y) (go cx cy)
                  end) cx cy))))
  end.

Section Normalize.
(** libc's qsort *)
Variable qsort : forall A : Type, (A -> A -> comparison) -> list A -> list A.

(** camatch.c:374-454 ca_match_normalize. The only error of ca_match_merge is EDOM here, so q stays 0. [fuel] is any
    number above the depth of the tree. *)
Section Loops.
Variable normalize : cmatch -> res cmatch.
(** camatch.c:403-407 *)
Fixpoint normalize_children (l : list cmatch) : res (list cmatch) :=
  match l with
  | [] => Ok []
  | c :: l => let! c := normalize c in let! l := normalize_children l in Ok (c :: l)
  end.
(** camatch.c:417-452: [cur] is children[j - 1], [again] is normalize_previous. *)
Fixpoint merge_loop (cur : cmatch) (again : bool) (l : list cmatch) : res (list cmatch) :=
  match l with
  | [] => let! cur := (if again then normalize cur else Ok cur) in Ok [cur]
  | c :: l =>
      match merge_nodes cur c with
      | Ok cur => merge_loop cur true l
      | _ =>
          let! cur := (if again then normalize cur else Ok cur) in
          let! l := merge_loop c false l in
          Ok (cur :: l)
      end
  end.
End Loops.

Fixpoint normalize_ (fuel : nat) (m : cmatch) : res cmatch :=
  match fuel with
  | O => Abort
  | S fuel =>
      let '(CM t n a d ch) := m in
      match ch with
      | [] => Ok m
      | _ =>
          if negb (mtype_eqb t INNER && a && d) then Abort        (* assert() *)
          else
            let! ch := normalize_children (normalize_ fuel) ch in
            if len ch <=? 1 then Ok (CM t n a d ch)
            else match qsort cmatch compare_match ch with
                 | [] => Ok (CM t n a d [])                       (* not reached: qsort() keeps the number of elements *)
                 | cur :: l => let! ch := merge_loop (normalize_ fuel) cur false l in Ok (CM t n a d ch)
                 end
      end
  end.

Fixpoint depth (m : cmatch) : nat := let '(CM _ _ _ _ ch) := m in S (fold_right (fun c n => Nat.max (depth c) n) O ch).

Definition normalize (m : cmatch) : res cmatch := normalize_ (S (depth m)) m.

(** fnmatch(3) with FNM_PERIOD: [Some true] if it matches, [Some false] for FNM_NOMATCH, [None] for an error. *)
Variable fnmatch : list N -> list N -> option bool.

Record found := mkFound { fo_subtree : option cmatch; fo_positive : bool; fo_negative : bool; fo_unanchored : bool; fo_2nd : bool }.

Definition sub_add (s : option cmatch) (c : cmatch) : cmatch :=
  add_child (match s with None => alloc_subtree | Some m => m end) c.

(** camatch.c:470-535: the loop of ca_match_test; [inl] is an early return, [want] is ret_subtree != NULL. *)
Fixpoint test_loop (name : list N) (is_directory want : bool) (l : list cmatch) (s : found) : res (bool + found) :=
  match l with
  | [] => Ok (inr s)
  | child :: l =>
      let s := if want && negb (m_anchored child) && is_directory
               then mkFound (Some (sub_add (fo_subtree s) child)) (fo_positive s) (fo_negative s) true (fo_2nd s)
               else s in
      if m_directory_only child && negb is_directory then test_loop name is_directory want l s
      else match fnmatch (m_name child) name with
           | None => Err EINVAL
           | Some false => test_loop name is_directory want l s
           | Some true =>
               match m_type child with
               | NEGATIVE =>
                   if negb want then Ok (inl false)
                   else test_loop name is_directory want l (mkFound (fo_subtree s) (fo_positive s) true (fo_unanchored s) (fo_2nd s))
               | POSITIVE =>
                   test_loop name is_directory want l (mkFound (fo_subtree s) true (fo_negative s) (fo_unanchored s) (fo_2nd s))
               | INNER =>
                   let s := match m_children child with
                            | [] => s
                            | cs => if want
                                    then mkFound (Some (fold_left (fun t c => sub_add (Some t) c) cs
                                                          (match fo_subtree s with None => alloc_subtree | Some m => m end)))
                                           (fo_positive s) (fo_negative s) (fo_unanchored s) true
                                    else s
                            end in
                   test_loop name is_directory want l s
               end
           end
  end.

(** camatch.c:456-557 ca_match_test: the answer and *ret_subtree. *)
Definition test (m : option cmatch) (name : list N) (is_directory want : bool) : res (bool * option cmatch) :=
  if match name with [] => true | _ => false end || dot_or_dot_dot name then Err EINVAL
  else
    let! x := test_loop name is_directory want (match m with None => [] | Some m => m_children m end)
                (mkFound None false false false false) in
    match x with
    | inl b => Ok (b, None)
    | inr s =>
        let! sub := (if want && fo_2nd s && fo_unanchored s
                     then match fo_subtree s with
                          | Some t => let! t := normalize t in Ok (Some t)
                          | None => Ok None
                          end
                     else Ok (fo_subtree s)) in
        Ok (if fo_negative s then false else fo_positive s, sub)
    end.

(** ** What the encoder does with it *)

(** caencoder.c:529-567 ca_encoder_node_load_exclude_file: [file] is the content of the directory's .caexclude. *)
Definition load_exclude_file (ff : N) (exclude_match : option cmatch) (file : option (list N)) : res (option cmatch) :=
  if negb (has ff EXCLUDE_FILE) then Ok exclude_match
  else match file with
       | None => Ok exclude_match
       | Some f => let! m := new_from_file f in merge exclude_match m
       end.

(** caencoder.c:1854-1869, the end of ca_encoder_shall_store_child_node: whether to store the child, and its own
    exclude_match, which is empty before. *)
Definition exclude_child (exclude_match : option cmatch) (name : list N) (is_directory : bool) : res (bool * option cmatch) :=
  let! (excluded, sub) := test exclude_match name is_directory true in
  if (excluded : bool) then Ok (false, None)
  else let! sub := merge None sub in Ok (true, sub).

(** The way of the encoder to the entry [path] below the directory [dir], whose exclude_match is given: it loads the
    .caexclude of each directory when it gets to its first entry, and enters only what it stores. [files] has the
    contents of the .caexclude files by directory. The result tells whether the entry is stored. *)
Fixpoint walk (ff : N) (files : list (list N) -> option (list N)) (dir : list (list N)) (exclude_match : option cmatch)
    (path : list (list N)) (is_directory : bool) : res bool :=
  match path with
  | [] => Ok true
  | name :: path =>
      let! m := load_exclude_file ff exclude_match (files dir) in
      let! (stored, sub) := exclude_child m name (match path with [] => is_directory | _ => true end) in
      if (stored : bool) then walk ff files (dir ++ [name]) sub path is_directory else Ok false
  end.
End Normalize.
