(** Specification of .caexclude files, after doc/casync.rst:280-300. *)
From Verif Require Import Base FeatureFlags.
Local Open Scope N_scope.

(** A rule: the pattern's components; whether it has a "!" (re-includes), is relative to the directory of its file only,
    applies to directories only. *)
Record rule := mkRule { r_negative : bool; r_anchored : bool; r_directory : bool; r_components : list (list N) }.

Fixpoint split (sep : N) (s : list N) : list (list N) :=
  match s with
  | [] => [[]]
  | c :: s => if c =? sep then [] :: split sep s
              else match split sep s with x :: l => (c :: x) :: l | [] => [[c]] end
  end.
Definition components (s : list N) : list (list N) := filter (fun c => negb (beq c [])) (split 47 s).

(** The rule a line states; [None] for a line that isn't valid: no component, or "." or ".." as a component. *)
Definition line_rule (line : list N) : option rule :=
  let '(negative, body) := match line with 33 :: b => (true, b) | _ => (false, line) end in
  match components body with
  | [] => None
  | cs => if existsb (fun c => beq c [46] || beq c [46; 46]) cs then None
          else Some (mkRule negative (existsb (fun c => c =? 47) body) (last body 0 =? 47) cs)
  end.

Section Fnmatch.
Variable fnmatch : list N -> list N -> option bool.
Definition fits (pattern name : list N) : Prop := fnmatch pattern name = Some true.

(** Whether a rule of a .caexclude file applies to a file, whose path from the directory of the .caexclude is given. *)
Definition applies (r : rule) (path : list (list N)) (is_directory : bool) : Prop :=
  (r_directory r = true -> is_directory = true) /\
  if r_anchored r
  then Forall2 fits (r_components r) path                                                 (* strictly relative *)
  else exists above name, path = above ++ [name] /\ Forall2 fits (r_components r) [name]. (* here and in all directories below *)
End Fnmatch.

(** The lines of a text file. A newline or a NUL byte ends a line; the last line may lack it. *)
Inductive text : list N -> list (list N) -> Prop :=
| text_end : text [] []
| text_last l : l <> [] -> ~ In 10 l -> ~ In 0 l -> text l [l]
| text_line l c rest ls : ~ In 10 l -> ~ In 0 l -> (c = 10 \/ c = 0) -> text rest ls -> text (l ++ c :: rest) (l :: ls).

(** A line without the blanks around it. *)
Definition blank_char (c : N) : Prop := c = 32 \/ c = 9.
Definition trimmed (line l : list N) : Prop :=
  exists a b, line = a ++ l ++ b /\ Forall blank_char a /\ Forall blank_char b /\
    (l = [] \/ (~ blank_char (hd 0 l) /\ ~ blank_char (last l 0))).

(** The lines that count: not empty, no comments. *)
Definition rule_line (file : list N) (l : list N) : Prop :=
  exists ls line, text file ls /\ In line ls /\ trimmed line l /\ l <> [] /\ hd 0 l <> 35.

Definition file_rule (file : list N) (r : rule) : Prop := exists l, rule_line file l /\ line_rule l = Some r.

Section Tree.
Variable fnmatch : list N -> list N -> option bool.
(** The .caexclude files of the tree, by directory *)
Variable files : list (list N) -> option (list N).

(** A rule of some .caexclude file in a directory on the way applies to the file at [path]. *)
Definition hit (negative : bool) (path : list (list N)) (is_directory : bool) : Prop :=
  exists dir rest file r, path = dir ++ rest /\ rest <> [] /\ files dir = Some file /\ file_rule file r /\
    r_negative r = negative /\ applies fnmatch r rest is_directory.

(** Excluded: some line applies, and no "!" line does. *)
Definition excluded (path : list (list N)) (is_directory : bool) : Prop :=
  hit false path is_directory /\ ~ hit true path is_directory.

(** Archived: neither the file itself nor a directory above it is excluded. *)
Definition archived (path : list (list N)) (is_directory : bool) : Prop :=
  forall p rest, path = p ++ rest -> p <> [] ->
    ~ excluded p (match rest with [] => is_directory | _ => true end).

(** Nothing is wrong with a .caexclude file: valid lines of less than 64 KiB. *)
Definition file_valid (file : list N) : Prop :=
  (forall l, rule_line file l -> line_rule l <> None) /\ (forall ls l, text file ls -> In l ls -> len l < 65536).
End Tree.
