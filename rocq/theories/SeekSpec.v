(** Seeking in an archive: specification. *)
From Verif Require Import Base FeatureFlags ArchiveBase Decoder DecoderSpec Seek.
Local Open Scope N_scope.

(** The file at a path, given as the list of names from the root on. *)
Inductive at_path : tree -> list (list N) -> tree -> Prop :=
| at_here t : at_path t [] t
| at_in m ents name t p t' : In (name, t) ents -> at_path t p t' -> at_path (TDir m ents) (name :: p) t'.

(** No two entries of a directory have the same name. *)
Definition distinct_names (t : tree) : Prop := forall p m ents, at_path t p (TDir m ents) -> NoDup (map fst ents).

(** The names in a path: what is between the slashes, unless there is nothing. *)
Fixpoint pieces (s : list N) : list (list N) :=
  match s with
  | [] => [[]]
  | c :: s => if c =? 47 then [] :: pieces s else match pieces s with [] => [[c]] | w :: ws => (c :: w) :: ws end
  end.
Definition names_of (s : list N) : list (list N) := filter (fun w => negb (beq w [])) (pieces s).

(** ** Using a decoder with an archive [b] that can be read from anywhere *)
Section Use.
Variables (env : denv) (hash : list N -> N) (b : list N).

(** Decoding goes on from [pos] on, however the caller cuts the archive into pieces, until the result of a step is as [Q]
    says: whenever the decoder requests data it gets at least one byte of what follows; whenever it wants to seek, the caller
    goes on from there. *)
Inductive leads (Q : sret -> sdec -> N -> Prop) : sdec -> N -> Prop :=
| leads_end s pos r s' : sstep env hash s = Ok (r, s') -> Q r s' pos -> leads Q s pos
| leads_step s pos s' : sstep env hash s = Ok (SR R_STEP, s') -> leads Q s' pos -> leads Q s pos
| leads_seek s pos s' off : sstep env hash s = Ok (R_SEEK, s') -> get_seek_offset s' = Ok off -> off <= len b ->
    leads Q s' off -> leads Q s pos
| leads_request s pos s' : sstep env hash s = Ok (SR R_REQUEST, s') -> pos < len b ->
    (forall k, 0 < k -> exists s2, sput s' (takeN k (dropN pos b)) = Ok s2) ->
    (forall k s2, 0 < k -> sput s' (takeN k (dropN pos b)) = Ok s2 -> leads Q s2 (pos + len (takeN k (dropN pos b)))) ->
    leads Q s pos.

(** Reading on, as [drun] in DecoderSpec.v, from a decoder that knows about seeking. *)
Inductive srun : sdec -> list N -> list obs -> outcome -> Prop :=
| srun_put s p i s' o r : sput s p = Ok s' -> srun s' i o r -> srun s (p ++ i) o r
| srun_eof s o r : srun (sput_eof s) [] o r -> srun s [] o r
| srun_step s i x s' o r : sstep env hash s = Ok (SR x, s') -> x <> R_FINISHED ->
    srun s' i o r -> srun s i (observe x (s_d s') ++ o) r
| srun_finished s i s' : sstep env hash s = Ok (SR R_FINISHED, s') -> srun s i [] (Finished (d_buf (s_d s') ++ i))
| srun_failed s i e : sstep env hash s = Err e -> srun s i [] (Failed e)
| srun_starved s s' : d_eof (s_d s) = true -> sstep env hash s = Ok (SR R_REQUEST, s') -> srun s [] [] Starved
| srun_crashed s i : (sstep env hash s = Abort \/ sstep env hash s = UB) -> srun s i [] Crashed
| srun_other s i x s' : sstep env hash s = Ok (x, s') -> (forall r, x <> SR r) -> srun s i [] Crashed.

(** The decoder is at the file [t], whose path is [p]: from here on it shows that file with everything in it, and nothing
    else. [i] is the input that follows. *)
Definition shows (s : sdec) (i : list N) (p : list (list N)) (t : tree) : Prop :=
  (exists o r, srun s i o r) /\
  forall o r, srun s i o r -> o = tree_obs p t /\ exists rest, r = Finished rest.

(** What a seek to a path has to come to, in an archive of the tree [t]. *)
Definition seek_result (t : tree) (p : list (list N)) (r : sret) (s : sdec) (pos : N) : Prop :=
  (r = R_FOUND /\ exists t', at_path t p t' /\ shows s (dropN pos b) p t') \/
  (r = R_NOT_FOUND /\ forall t', ~ at_path t p t').
End Use.

(** Any seeks, one after the other, each once the one before has come to its end; [last] is the path of the file found by
    the one before, if it found one. Each comes to what it has to come to, or is refused at once because its path leads
    further down from that file: what that is the decoder hasn't read yet. *)
Section Seeks.
Variables (env : denv) (hash : list N -> N) (b : list N) (t : tree).
Fixpoint seeks (paths : list (list N)) (last : option (list (list N))) (s : sdec) : Prop :=
  match paths with
  | [] => True
  | p :: paths =>
      (exists s', seek_path hash s p = Ok s' /\ forall pos,
         leads env hash b (fun r s2 pos2 => seek_result env hash b t (names_of p) r s2 pos2 /\
                             seeks paths (match r with R_FOUND => Some (names_of p) | _ => None end) s2) s' pos) \/
      (seek_path hash s p = Err EUNATCH /\ exists l c cs, last = Some l /\ l <> [] /\ names_of p = l ++ c :: cs)
  end.
End Seeks.
