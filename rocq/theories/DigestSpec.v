(** What the user of an encoder or a decoder gets to know about digests: specification of runs. *)
From Verif Require Import Base FeatureFlags ArchiveBase Decoder DecoderSpec Encoder EncoderSpec Digest.
Local Open Scope N_scope.

(** A getter is called, or it isn't. *)
Inductive asks {S : Type} (get : S -> res (list N * S)) : S -> option (res (list N)) -> S -> Prop :=
| not_asked s : asks get s None s
| asked s v s' : get s = Ok (v, s') -> asks get s (Some (Ok v)) s'
| asked_error s e : get s = Err e -> asks get s (Some (Err e)) s
| asked_abort s : get s = Abort -> asks get s (Some Abort) s
| asked_ub s : get s = UB -> asks get s (Some UB) s.

(** What is seen of a decoder: what was seen without digests, and when a file is complete the payload digest and the
    hardlink digest (or what the call failed with), if they were asked for. *)
Inductive gobs :=
| GSee (o : obs)
| GDigests (payload hardlink : option (res (list N))).
(** How it ends: with success, the rest of the input and the archive digest; or the user has seen enough. *)
Inductive goutcome := GFinished (rest : list N) (archive : option (res (list N))) | GStopped.

Section Run.
Variable H : digest_type -> list N -> list N.

Inductive grun (env : denv) : gdec -> list N -> list gobs -> goutcome -> Prop :=
| grun_put d g p i d' o r :
    decoder_put_data d p = Ok d' -> grun env (d', g) i o r -> grun env (d, g) (p ++ i) o r
| grun_eof d g o r :
    grun env (decoder_put_eof d, g) [] o r -> grun env (d, g) [] o r
| grun_step s i x s' o r :
    gd_step env s = Ok (x, s') -> x <> R_FINISHED -> x <> R_DONE_FILE ->
    grun env s' i o r -> grun env s i (map GSee (observe x (fst s')) ++ o) r
| grun_done s i s1 vp s2 vh s3 o r :
    gd_step env s = Ok (R_DONE_FILE, s1) -> asks (gd_payload H) s1 vp s2 -> asks (gd_hardlink H) s2 vh s3 ->
    grun env s3 i o r -> grun env s i (map GSee (observe R_DONE_FILE (fst s1)) ++ GDigests vp vh :: o) r
| grun_finished s i s1 v s2 :
    gd_step env s = Ok (R_FINISHED, s1) -> asks (gd_archive H) s1 v s2 ->
    grun env s i [] (GFinished (d_buf (fst s1) ++ i) v)
| grun_stopped s i : grun env s i [] GStopped.

(** The data of one step of an encoder, taken with one or several calls. *)
Inductive gfetch (ev : eenv) : genc -> list N -> genc -> Prop :=
| gfetch_first s n b s' : 0 < n -> ge_get_data ev s n = Ok (Some b, s') -> gfetch ev s b s'
| gfetch_again s b s1 n b' s2 : gfetch ev s b s1 -> ge_get_data ev s1 n = Ok (Some b', s2) -> gfetch ev s b' s2.

(** What is seen of an encoder: the files it has finished with, and the digests that were asked for then. *)
Inductive eobs := EDone (f : fnode) (payload hardlink : option (res (list N))).
Inductive geoutcome := GEFinished (archive : option (res (list N))) | GEStopped.

Definition file_now (s : genc) : list fnode := match e_nodes (fst s) with n :: _ => [en_file n] | [] => [] end.

Inductive gerun (ev : eenv) : genc -> list N -> list eobs -> geoutcome -> Prop :=
| gerun_finished s s1 v s2 : ge_step ev s = Ok (ER_FINISHED, s1) -> asks (ge_archive H ev) s1 v s2 ->
    gerun ev s [] [] (GEFinished v)
| gerun_stopped s : gerun ev s [] [] GEStopped
| gerun_done s s1 vp s2 vh s3 b o r : ge_step ev s = Ok (ER_DONE_FILE, s1) ->
    asks (ge_payload H ev) s1 vp s2 -> asks (ge_hardlink H ev) s2 vh s3 -> gerun ev s3 b o r ->
    gerun ev s b (map (fun f => EDone f vp vh) (file_now s1) ++ o) r
| gerun_data s x s1 p s2 b o r : ge_step ev s = Ok (x, s1) -> has_data x = true ->
    gfetch ev s1 p s2 -> gerun ev s2 b o r -> gerun ev s (p ++ b) o r
| gerun_none s x s1 n s2 b o r : ge_step ev s = Ok (x, s1) -> has_data x = true ->
    ge_get_data ev s1 n = Ok (None, s2) -> gerun ev s2 b o r -> gerun ev s b o r.
End Run.

(** The little endian number in the eight bytes at offset [o]. *)
Definition number_at (o : N) (p : list N) : N := le_dec (takeN 8 (dropN o p)).
(** The algorithm the flags of a catar archive call for: its first record is the ENTRY of the root directory, where they
    are behind size and type (caformat.h). *)
Definition archive_digest_type (i : list N) : digest_type := feature_flags_to_digest_type (number_at 16 i).

(** What is stored of a file's contents: those of a regular file, but nothing if it's on one of the API file systems. *)
Definition contents (f : fnode) : list N :=
  if S_ISREG (f_mode f) then if fs_virtual (f_stat f) then [] else takeN (f_size f) (f_data f) else [].

(** Two inputs with the same digest. *)
Definition collision (H : digest_type -> list N -> list N) : Prop :=
  exists t1 x1 t2 x2, (t1, x1) <> (t2, x2) /\ H t1 x1 = H t2 x2.
