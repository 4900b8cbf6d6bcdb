(** The encoder's machine writes what a recursive function computes. *)
From Coq Require Import Sorted Permutation.
From Verif Require Import Base FeatureFlags ArchiveBase Bst Encoder EncoderSpec.
Local Open Scope N_scope.

(** Output so far and how it ended. *)
Definition W (A : Type) : Type := (list N * res A)%type.
Definition wret {A} (a : A) : W A := ([], Ok a).
Definition wcast {A B} (r : res A) : res B :=
  match r with Ok _ => UB | Err e => Err e | Abort => Abort | UB => UB end.
Definition wbind {A B} (m : W A) (k : A -> W B) : W B :=
  match m with
  | (b, Ok a) => let '(b', r) := k a in (b ++ b', r)
  | (b, r) => (b, wcast r)
  end.
Definition wout {A} (b : list N) (m : W A) : W A := (b ++ fst m, snd m).
Definition wlift {A} (r : res A) : W A := ([], r).

Lemma wout_app {A} a b (m : W A) : wout (a ++ b) m = wout a (wout b m).
Proof. unfold wout. cbn. rewrite app_assoc. reflexivity. Qed.
Lemma wout_nil {A} (m : W A) : wout [] m = m.
Proof. destruct m. reflexivity. Qed.
Lemma wbind_wout {A B} b (m : W A) (k : A -> W B) : wbind (wout b m) k = wout b (wbind m k).
Proof.
  destruct m as [x [a|e| |]]; unfold wout; cbn; try reflexivity. destruct (k a). cbn. rewrite app_assoc. reflexivity.
Qed.
Lemma wbind_assoc {A B C} (m : W A) (k : A -> W B) (l : B -> W C) :
  wbind (wbind m k) l = wbind m (fun a => wbind (k a) l).
Proof.
  destruct m as [x [a|e| |]]; cbn; try reflexivity. destruct (k a) as [y [b|e| |]]; cbn; try reflexivity.
  destruct (l b). rewrite app_assoc. reflexivity.
Qed.
Lemma wbind_ext {A B} (m : W A) (k k' : A -> W B) : (forall a, k a = k' a) -> wbind m k = wbind m k'.
Proof. intros H. destruct m as [b [a| | |]]; cbn; try reflexivity. rewrite H. reflexivity. Qed.
Lemma wbind_lift_ok {A B} (a : A) (k : A -> W B) : wbind (wlift (Ok a)) k = k a.
Proof. unfold wlift, wbind. destruct (k a). reflexivity. Qed.
Lemma wbind_ret {A B} (a : A) (k : A -> W B) : wbind (wret a) k = k a.
Proof. apply wbind_lift_ok. Qed.

Lemma Ok_inj {A} (x y : A) : Ok x = Ok y -> x = y.
Proof. congruence. Qed.
Lemma dropN_dropN' {A} a b (l : list A) : dropN a (dropN b l) = dropN (b + a) l.
Proof. rewrite dropN_dropN. f_equal. lia. Qed.
Lemma takeN_split' {A} k n (l : list A) : k <= n -> takeN k l ++ takeN (n - k) (dropN k l) = takeN n l.
Proof.
  intros H. replace (takeN k l) with (takeN k (takeN n l)) by (rewrite takeN_takeN; f_equal; lia).
  rewrite <- (takeN_dropN k (takeN n l)) at 2. f_equal. unfold takeN, dropN. rewrite skipn_firstn_comm. f_equal. lia.
Qed.

Section Enc.
Variable ev : eenv.

(** The data of a file from offset [po] on; EIO if the file is shorter than its size. Pieces have at most 64 KiB, and the
    bytes of the piece that can't be read completely are lost. *)
Definition enc_payload (f : fnode) (po : N) : list N := takeN (f_size f - po) (dropN po (f_data f)).
Definition can_read (f : fnode) : bool := f_size f <=? len (f_data f).

Definition table_add (t : option (N * list name_item)) (name : list N) (a : N) : res (option (N * list name_item)) :=
  match t with
  | None => Ok None
  | Some (eo, items) =>
      if match items with [] => false | _ => ni_end (last items (mkNameItem 0 0 0)) =? UINT64_MAX end then Abort
      else Ok (Some (eo, items ++ [mkNameItem (ev_hash ev name) a UINT64_MAX]))
  end.
Definition table_end (t : option (N * list name_item)) (a : N) : res (option (N * list name_item)) :=
  match t with None => Ok None | Some (eo, items) => let! i := update_end items a in Ok (Some (eo, i)) end.
Definition goodbye (t : option (N * list name_item)) (a : N) : res (list N) :=
  match t with None => Err ENOLINK | Some (eo, items) => get_goodbye_data ev a eo items end.
Definition new_table (parent : option (option (N * list name_item))) (f : fnode) (a : N) : option (N * list name_item) :=
  if negb (S_ISDIR (f_mode f)) then None
  else match parent with Some None => None | _ => Some (a, []) end.

(** The entries of a directory, from offset [a] on, and the GOODBYE record; [sub] encodes a child. *)
Section Ents.
Variable sub : list (list N) -> option (option (N * list name_item)) -> fnode -> N -> ecache -> W (N * ecache).
Variables (full : bool) (path : list (list N)) (dir : fnode).
Definition enc_goodbye (t : option (N * list name_item)) (a : N) (c : ecache) : W (N * ecache) :=
  wbind (wlift (goodbye t a)) (fun b => wout b (wret (a + len b, c))).
Fixpoint enc_ents (l : list (list N * fnode)) (t : option (N * list name_item)) (a : N) (c : ecache) : W (N * ecache) :=
  if nonempty l && full then ([], Err E2BIG)
  else match l with
  | [] => enc_goodbye t a c
  | (name, ch) :: l' =>
      if shall_store ev path dir name ch then
        wbind (wlift (table_add t name a)) (fun t =>
        wout (get_filename_data name)
        (wbind (sub (path ++ [name]) (Some t) ch (a + len (get_filename_data name)) c) (fun '(a, c) =>
         wbind (wlift (table_end t a)) (fun t => enc_ents l' t a c))))
      else enc_ents l' t a c
  end.
End Ents.

(** Contents of a regular file from [po] on. *)
Definition enc_pay (f : fnode) (po a : N) (c : ecache) : W (N * ecache) :=
  if can_read f then wout (enc_payload f po) (wret (a + (f_size f - po), c)) else (enc_payload f po, Err EIO).

(** Contents of a file, behind its entry. *)
Definition enc_content (sub : list (list N) -> option (option (N * list name_item)) -> fnode -> N -> ecache -> W (N * ecache))
  (full : bool) (path : list (list N)) (t : option (N * list name_item)) (f : fnode) (a : N) (c : ecache) : W (N * ecache) :=
  if shall_enumerate f then
    if S_ISREG (f_mode f) then enc_pay f 0 a c
    else if S_ISDIR (f_mode f) then enc_ents sub full path f (read_dirents ev f) t a c
    else wret (a, c)
  else if S_ISDIR (f_mode f) then enc_goodbye t a c
  else wret (a, c).

(** A file with [free] levels left below it, at offset [a]. The mode of a child is checked when its name is done
    (caencoder.c:2215-2217). *)
Definition is_full (free : nat) : bool := match free with O => true | S _ => false end.
Fixpoint enc_file (free : nat) (path : list (list N)) (pt : option (option (N * list name_item))) (f : fnode) (a : N) (c : ecache)
  : W (N * ecache) :=
  if match pt with Some _ => f_mode f =? 0 | None => false end then ([], Err EINVAL)
  else
  wbind (wlift (get_entry_data ev c f)) (fun '(b, c) =>
  wout b
  (enc_content (match free with O => fun _ _ _ a c => wret (a, c) | S n => enc_file n end) (is_full free)
     path (new_table pt f a) f (a + len b) c)).
Definition sub_of (free : nat) : list (list N) -> option (option (N * list name_item)) -> fnode -> N -> ecache -> W (N * ecache) :=
  match free with O => fun _ _ _ a c => wret (a, c) | S n => enc_file n end.
Lemma enc_file_eq free path pt f a c :
  enc_file free path pt f a c =
  if match pt with Some _ => f_mode f =? 0 | None => false end then ([], Err EINVAL)
  else wbind (wlift (get_entry_data ev c f)) (fun '(b, c) =>
       wout b (enc_content (sub_of free) (is_full free) path (new_table pt f a) f (a + len b) c)).
Proof. destruct free; reflexivity. Qed.

(** ** What is left to do in a state of the machine whose last data was fetched *)
Definition free_of {A} (nodes : list A) : nat := N.to_nat (NODES_MAX - len nodes).
Definition dirents_left (n : enode) : list (list N * fnode) := match en_dirents n with Some l => tl l | None => [] end.

(** Behind the current node, whose ancestors are [up]. *)
Fixpoint fin (up : list enode) (a : N) (c : ecache) : W unit :=
  match up with
  | [] => wret tt
  | p :: up' =>
      wbind (wlift (table_end (en_table p) a)) (fun t =>
      wbind (enc_ents (sub_of (free_of up)) (is_full (free_of up)) (epath up') (en_file p) (dirents_left p) t a c)
        (fun '(a, c) => fin up' a c))
  end.

Definition rem (e : enc) : W unit :=
  let a := e_aoff e + len (e_buf e) in
  let c := e_cache e in
  match e_nodes e with
  | [] => ([], UB)
  | n :: up =>
      match e_state e with
      | E_INIT =>
          if e_naked e then wbind (enc_pay (en_file n) 0 a c) (fun '(a, c) => fin up a c)
          else wbind (enc_file (free_of (n :: up)) [] None (en_file n) a c) (fun '(a, c) => fin up a c)
      | E_ENTRY =>
          wbind (enc_content (sub_of (free_of (n :: up))) (is_full (free_of (n :: up))) (epath up) (en_table n) (en_file n) a c)
            (fun '(a, c) => fin up a c)
      | E_IN_PAYLOAD =>
          wbind (enc_pay (en_file n) (e_poff e + len (e_buf e)) a c) (fun '(a, c) => fin up a c)
      | E_FILENAME =>
          match e_child e with
          | None => ([], UB)
          | Some ch => wbind (sub_of (free_of (n :: up)) (epath (n :: up)) (Some (en_table n)) ch a c)
                         (fun '(a, c) => fin (n :: up) a c)
          end
      | E_GOODBYE | E_FINALIZE => fin up a c
      | E_EOF => wret tt
      | _ => ([], UB)
      end
  end.

(** ** Invariant *)
Definition anc (p : enode) : Prop :=
  S_ISDIR (f_mode (en_file p)) = true /\ exists x l, en_dirents p = Some (x :: l).
Definition J (e : enc) : Prop :=
  len (e_nodes e) <= NODES_MAX /\
  match e_nodes e with
  | [] => False
  | n :: up =>
      Forall anc up /\
      match e_state e with
      | E_INIT => up = [] /\ e_buf e = [] /\ e_aoff e = 0 /\ en_table n = None /\ en_dirents n = None /\
                  (S_ISREG (f_mode (en_file n)) || S_ISDIR (f_mode (en_file n)))%bool = true
      | E_ENTRY => en_dirents n = None
      | E_IN_PAYLOAD => S_ISREG (f_mode (en_file n)) = true /\ e_poff e + len (e_buf e) <= f_size (en_file n) /\
                        e_poff e + len (e_buf e) <= len (f_data (en_file n))
      | E_FILENAME => exists name ch l, S_ISDIR (f_mode (en_file n)) = true /\ en_dirents n = Some ((name, ch) :: l) /\ e_child e = Some ch /\
                        len (e_nodes e) < NODES_MAX
      | E_GOODBYE => True
      | E_FINALIZE => True
      | E_EOF => True
      | _ => False
      end
  end.

(** What a step and the fetching of its data do. *)
Definition rankE (s : estate) : N :=
  match s with E_EOF => 0 | E_FINALIZE => 1 | E_GOODBYE => 2 | _ => 3 end.
Definition muE (e : enc) : N := 4 * len (fst (rem e)) + rankE (e_state e).

Definition crash {A} (r : res A) : Prop := r = Abort \/ r = UB.

Definition out_ok (r : res (eret * enc)) (R : W unit) (k : N) : Prop :=
  match r with
  | Ok (ER_FINISHED, _) => R = wret tt
  | Ok (x, e1) =>
      if has_data x then
        forall s, 0 < s ->
        match encoder_get_data ev e1 s with
        | Ok (Some b, e2) => J e2 /\ R = wout b (rem e2) /\ e_buf e2 = b /\ b <> []
        | Ok (None, _) => False
        | Err er => snd R = Err er
        | Abort | UB => crash (snd R)
        end
      else J e1 /\ R = rem e1 /\ rankE (e_state e1) < k
  | Err er => snd R = Err er
  | Abort | UB => crash (snd R)
  end.

Lemma wbind_err {A B} (r : res A) (k : A -> W B) :
  match r with Ok a => wbind (wlift r) k = k a | Err e => snd (wbind (wlift r) k) = Err e
  | Abort | UB => crash (snd (wbind (wlift r) k)) end.
Proof. destruct r; [apply wbind_lift_ok|reflexivity|left; reflexivity|right; reflexivity]. Qed.
Lemma snd_wbind_err {A B} (m : W A) (k : A -> W B) e : snd m = Err e -> snd (wbind m k) = Err e.
Proof. destruct m as [b [a| | |]]; cbn; congruence. Qed.
Lemma snd_wbind_crash {A B} (m : W A) (k : A -> W B) : crash (snd m) -> crash (snd (wbind m k)).
Proof. unfold crash. destruct m as [b [a| | |]]; cbn; intros [H | H]; try discriminate; auto. Qed.
Lemma snd_wout {A} b (m : W A) : snd (wout b m) = snd m.
Proof. reflexivity. Qed.

Lemma out_payload e n up k : e_state e = E_IN_PAYLOAD -> e_buf e = [] -> e_nodes e = n :: up -> len (e_nodes e) <= NODES_MAX ->
  Forall anc up ->
  S_ISREG (f_mode (en_file n)) = true -> e_poff e <= f_size (en_file n) -> e_poff e <= len (f_data (en_file n)) -> 1 < k ->
  out_ok (estep_payload e n) (wbind (enc_pay (en_file n) (e_poff e) (e_aoff e) (e_cache e)) (fun '(a, c) => fin up a c)) k.
Proof.
  intros Hs Hb Hn Hd Hup Hr Hp1 Hp2 Hk. unfold estep_payload. rewrite Hr. cbn [negb].
  destruct (N.leb_spec (f_size (en_file n)) (e_poff e)) as [L | L].
  - assert (E : e_poff e = f_size (en_file n)) by lia.
    assert (R : wbind (enc_pay (en_file n) (e_poff e) (e_aoff e) (e_cache e)) (fun '(a, c) => fin up a c) = fin up (e_aoff e) (e_cache e)).
    { unfold enc_pay, can_read, enc_payload. destruct (N.leb_spec (f_size (en_file n)) (len (f_data (en_file n)))); [|lia].
      rewrite E, N.sub_diag, takeN_0, wout_nil, wbind_ret, N.add_0_r. reflexivity. }
    rewrite R. destruct (e_naked e) eqn:Nk.
    + cbn. unfold e_naked in Nk. rewrite Hn in Nk. destruct up; [reflexivity|discriminate].
    + cbn [out_ok has_data]. split; [|split; [|exact Hk]].
      * unfold J, eenter. cbn. rewrite Hn in *. auto.
      * unfold rem, eenter. cbn. rewrite Hn, Hb. cbn. rewrite N.add_0_r. reflexivity.
  - cbn [out_ok has_data]. intros s Hs0. unfold encoder_get_data. rewrite Hb. change (0 <? len []) with false. cbv iota.
    rewrite Hn, Hs, Hr. cbn [negb]. unfold get_payload_data.
    destruct (N.leb_spec (f_size (en_file n)) (e_poff e)); [lia|].
    set (k0 := N.min BUFFER_SIZE (f_size (en_file n) - e_poff e)).
    set (k1 := if (negb (s =? UINT64_MAX) && (s <? k0))%bool then s else k0).
    assert (K : 0 < k1 <= f_size (en_file n) - e_poff e).
    { unfold k1, k0, BUFFER_SIZE. destruct (_ && _)%bool eqn:Q; lia. }
    set (m := takeN k1 (dropN (e_poff e) (f_data (en_file n)))).
    assert (Lm : len m = N.min k1 (len (f_data (en_file n)) - e_poff e)) by (unfold m; rewrite len_takeN, len_dropN; reflexivity).
    destruct (N.eqb_spec (len m) k1) as [E | E]; cbn [negb bind].
    + split; [|split; [|split]].
      * unfold J, ewith. cbn. rewrite Hn, Hs in *. split; [exact Hd|]. split; [exact Hup|]. split; [exact Hr|]. lia.
      * unfold rem, ewith. cbn. rewrite Hn, Hs. cbn [fst snd]. rewrite <- wbind_wout. f_equal.
        unfold enc_pay. unfold can_read. destruct (N.leb_spec (f_size (en_file n)) (len (f_data (en_file n)))) as [C | C].
        -- rewrite <- wout_app. unfold enc_payload. f_equal; [|f_equal; f_equal; lia].
           rewrite E. unfold m. rewrite <- (dropN_dropN' k1 (e_poff e)), N.sub_add_distr. symmetry. apply takeN_split'. lia.
        -- unfold wout. cbn. f_equal. unfold enc_payload. rewrite E. unfold m. rewrite <- (dropN_dropN' k1 (e_poff e)), N.sub_add_distr. symmetry. apply takeN_split'. lia.
      * reflexivity.
      * intros Z. assert (Lz : len m = 0) by (rewrite Z; reflexivity). rewrite E in Lz. clear -K Lz. lia.
    + apply snd_wbind_err. unfold enc_pay, can_read.
      destruct (N.leb_spec (f_size (en_file n)) (len (f_data (en_file n)))); [lia|reflexivity].
Qed.

Lemma get_goodbye_nonempty start eo items b : get_goodbye_data ev start eo items = Ok b -> b <> [].
Proof.
  unfold get_goodbye_data. cbv zeta. destruct (name_table_make_bst _ _); cbn [bind]; try discriminate.
  destruct (negb _); [discriminate|]. destruct (negb _); [discriminate|]. intros H. apply Ok_inj in H. subst b.
  intros Z. apply (f_equal len) in Z. rewrite !len_app, len_le64 in Z. change (len (@nil N)) with 0 in Z. lia.
Qed.
Lemma entry_nonempty c f b c' : get_entry_data ev c f = Ok (b, c') -> b <> [].
Proof.
  unfold get_entry_data. destruct (entry_meta _ _ _) as [[m c2]| | |]; cbn [bind]; try discriminate. intros H. apply Ok_inj in H.
  intros Z. assert (Hb : b = ser_meta ev m ++ ser_tail f) by congruence. rewrite Hb in Z. apply (f_equal len) in Z. unfold ser_meta, obj in Z. rewrite !len_app, len_le64 in Z. change (len (@nil N)) with 0 in Z. lia.
Qed.
Lemma filename_nonempty name : get_filename_data name <> [].
Proof.
  intros Z. apply (f_equal len) in Z. unfold get_filename_data, obj in Z. rewrite !len_app, len_le64 in Z. change (len (@nil N)) with 0 in Z. lia.
Qed.

(** Skipped entries don't matter. *)
Lemma enc_ents_next sub path dir l t a c :
  enc_ents sub false path dir l t a c = enc_ents sub false path dir (next_child ev path dir l) t a c.
Proof.
  induction l as [|[name ch] l IH]; [reflexivity|]. cbn [next_child].
  destruct (shall_store ev path dir name ch) eqn:S; [reflexivity|].
  rewrite <- IH. cbn [enc_ents nonempty andb]. rewrite S. reflexivity.
Qed.

(** At the GOODBYE record. *)
Lemma out_goodbye e n up k : e_state e = E_GOODBYE -> e_poff e = 0 -> e_buf e = [] -> e_nodes e = n :: up -> len (e_nodes e) <= NODES_MAX ->
  Forall anc up ->
  out_ok (Ok (ER_DATA, e)) (wbind (enc_goodbye (en_table n) (e_aoff e) (e_cache e)) (fun '(a, c) => fin up a c)) k.
Proof.
  intros Hs Hp Hb Hn Hd Hup. cbn [out_ok has_data]. intros s _. unfold encoder_get_data. rewrite Hb, Hn, Hs, Hp.
  change (0 <? len []) with false. cbv iota. unfold enc_goodbye, goodbye.
  destruct (en_table n) as [[eo items]|]; [|reflexivity].
  destruct (N.ltb_spec (e_aoff e) 0); [lia|]. rewrite N.sub_0_r.
  destruct (get_goodbye_data ev (e_aoff e) eo items) as [b|er| |] eqn:G; cbn [bind].
  - rewrite wbind_lift_ok, wbind_wout, wbind_ret, dropN_0. split; [|split; [|split]].
    + unfold J, ewith. cbn. rewrite Hn, Hs in *. auto.
    + unfold rem, ewith. cbn. rewrite Hn, Hs. reflexivity.
    + reflexivity.
    + eapply get_goodbye_nonempty; eauto.
  - reflexivity.
  - left; reflexivity.
  - right; reflexivity.
Qed.

Lemma epath_cons n up : epath (n :: up) = epath up ++ [ename n].
Proof. unfold epath. cbn. reflexivity. Qed.
Lemma full_of {A} (l : list A) : is_full (free_of l) = (NODES_MAX <=? len l).
Proof.
  unfold is_full, free_of. destruct (N.leb_spec NODES_MAX (len l)); destruct (N.to_nat (NODES_MAX - len l)) eqn:E; auto; lia.
Qed.

Lemma out_dirent e n up k : e_buf e = [] -> len (e_nodes e) = len (n :: up) -> len (e_nodes e) <= NODES_MAX ->
  Forall anc up -> S_ISDIR (f_mode (en_file n)) = true ->
  out_ok (estep_dirent ev e n up)
    (wbind (enc_ents (sub_of (free_of (n :: up))) (is_full (free_of (n :: up))) (epath up) (en_file n)
              (match en_dirents n with Some l => l | None => read_dirents ev (en_file n) end) (en_table n) (e_aoff e) (e_cache e))
       (fun '(a, c) => fin up a c)) k.
Proof.
  intros Hb Hn Hd Hup Hr. unfold estep_dirent. rewrite Hr. cbn [negb].
  set (l := match en_dirents n with Some l => l | None => read_dirents ev (en_file n) end). clearbody l.
  rewrite full_of, Hn. destruct (N.leb_spec NODES_MAX (len (n :: up))) as [F | F].
  - rewrite andb_true_r. destruct l as [|x l]; [|reflexivity]. cbn [nonempty next_child].
    assert (G := out_goodbye (eenter (eset e (mkEnode (en_file n) (Some []) (en_table n) :: up) None) E_GOODBYE)
                   (mkEnode (en_file n) (Some []) (en_table n)) up k eq_refl eq_refl Hb eq_refl).
    apply G; [|exact Hup]. cbn. rewrite len_cons, <- (len_cons n up), <- Hn. exact Hd.
  - rewrite andb_false_r, enc_ents_next. 
    assert (S0 : forall name ch l', next_child ev (epath up) (en_file n) l = (name, ch) :: l' -> shall_store ev (epath up) (en_file n) name ch = true).
    { clear. induction l as [|[x y] l IH]; [discriminate|]. cbn. destruct (shall_store _ _ _ x y) eqn:E; [|exact IH].
      intros name ch l' H; injection H as <- <- <-. exact E. }
    destruct (next_child ev (epath up) (en_file n) l) as [|[name ch] l'].
    + assert (G := out_goodbye (eenter (eset e (mkEnode (en_file n) (Some []) (en_table n) :: up) None) E_GOODBYE)
                   (mkEnode (en_file n) (Some []) (en_table n)) up k eq_refl eq_refl Hb eq_refl).
      apply G; [|exact Hup]. cbn. rewrite len_cons, <- (len_cons n up). lia.
    + cbn [enc_ents nonempty andb]. rewrite (S0 _ _ _ eq_refl). rewrite wbind_assoc.
      change (match en_table n with None => Ok None | Some (eo, items) => if match items with [] => false | _ => ni_end (last items (mkNameItem 0 0 0)) =? UINT64_MAX end then Abort else Ok (Some (eo, items ++ [mkNameItem (ev_hash ev name) (e_aoff e) UINT64_MAX])) end)
        with (table_add (en_table n) name (e_aoff e)).
      destruct (table_add (en_table n) name (e_aoff e)) as [t|er| |]; cbn [bind];
        [|reflexivity|left; reflexivity|right; reflexivity].
      rewrite wbind_lift_ok, wbind_wout. cbn [out_ok has_data]. intros s _.
      unfold encoder_get_data. cbn [eenter eset e_buf e_nodes e_state e_child e_aoff e_poff e_cache en_dirents]. rewrite Hb.
      change (0 <? len []) with false. cbv iota. rewrite dropN_0. split; [|split; [|split]].
      * unfold J, ewith. cbn. split; [rewrite len_cons, <- (len_cons n up); lia|]. split; [exact Hup|].
        exists name, ch, l'. split; [exact Hr|]. split; [reflexivity|]. split; [reflexivity|]. rewrite len_cons, <- (len_cons n up). exact F.
      * f_equal. unfold rem, ewith, eenter, eset. cbn [e_nodes e_state e_child e_buf e_aoff e_cache en_table].
        rewrite wbind_assoc, epath_cons. cbn [ename en_dirents].
        set (nn := mkEnode (en_file n) (Some ((name, ch) :: l')) t).
        assert (FF : free_of (nn :: up) = free_of (n :: up)) by reflexivity. rewrite FF.
        apply wbind_ext. intros [a' c']. cbn [fin]. rewrite wbind_assoc. apply wbind_ext. intros t'. rewrite FF, full_of.
        destruct (N.leb_spec NODES_MAX (len (n :: up))); [lia|]. reflexivity.
      * reflexivity.
      * apply filename_nonempty.
Qed.

Lemma out_next_dirent e n up k : e_buf e = [] -> e_nodes e = n :: up -> len (e_nodes e) <= NODES_MAX ->
  Forall anc (n :: up) ->
  out_ok (estep_next_dirent ev e n up) (fin (n :: up) (e_aoff e) (e_cache e)) k.
Proof.
  intros Hb Hn Hd Hup. unfold estep_next_dirent. cbn [fin].
  change (match en_table n with None => Ok None | Some (eo, items) => let! i := update_end items (e_aoff e) in Ok (Some (eo, i)) end)
    with (table_end (en_table n) (e_aoff e)).
  destruct (table_end (en_table n) (e_aoff e)) as [t|er| |]; cbn [bind]; [|reflexivity|left; reflexivity|right; reflexivity].
  rewrite wbind_lift_ok. inversion Hup as [|x y Hx Hy]; subst. destruct Hx as (Hr & d0 & l0 & E0).
  unfold dirents_left. rewrite E0. cbn [tl].
  apply (out_dirent e (mkEnode (en_file n) (Some l0) t) up k Hb); [rewrite Hn; reflexivity|exact Hd|exact Hy|exact Hr].
Qed.

Lemma out_entered e n up k : e_state e = E_ENTERED -> e_buf e = [] -> e_poff e = 0 -> len (n :: up) <= NODES_MAX ->
  Forall anc up -> en_table n = None -> en_dirents n = None ->
  (up <> [] -> f_mode (en_file n) <> 0) ->
  out_ok (estep_entered e n up)
    (wbind (enc_file (free_of (n :: up)) (epath up) (match up with [] => None | p :: _ => Some (en_table p) end) (en_file n) (e_aoff e) (e_cache e))
       (fun '(a, c) => fin up a c)) k.
Proof.
  intros Hs Hb Hp Hd Hup Ht Hdi Hm. unfold estep_entered. cbn [out_ok has_data]. intros s _.
  unfold encoder_get_data. cbn [eenter eset e_buf e_nodes e_state e_child e_aoff e_poff e_cache en_file]. rewrite Hb.
  change (0 <? len []) with false. cbv iota. rewrite enc_file_eq.
  assert (M0 : match (match up with [] => None | p :: _ => Some (en_table p) end) with
               | Some _ => f_mode (en_file n) =? 0 | None => false end = false).
  { destruct up; [reflexivity|]. apply N.eqb_neq, Hm. discriminate. }
  rewrite M0. rewrite wbind_assoc.
  destruct (get_entry_data ev (e_cache e) (en_file n)) as [[b c]|er| |] eqn:G; cbn [bind];
    [|reflexivity|left; reflexivity|right; reflexivity].
  rewrite wbind_lift_ok, wbind_wout, dropN_0. split; [|split; [|split]].
  - unfold J, ewith. cbn. split; [rewrite len_cons, <- (len_cons n up); exact Hd|]. auto.
  - f_equal. unfold rem, ewith, eenter, eset. cbn [e_nodes e_state e_child e_buf e_aoff e_cache en_table en_file].
    f_equal. f_equal. rewrite Ht. unfold new_table. destruct (S_ISDIR (f_mode (en_file n))); cbn [negb]; [|reflexivity].
    destruct up as [|p up]; [reflexivity|]. destruct (en_table p); reflexivity.
  - reflexivity.
  - eapply entry_nonempty; eauto.
Qed.

Lemma reg_dir_excl m : S_ISREG m = true -> S_ISDIR m = false.
Proof. unfold S_ISREG, S_ISDIR, is_type. intros H. apply N.eqb_eq in H. rewrite H. reflexivity. Qed.

Theorem step_ok e : J e -> e_state e <> E_EOF -> out_ok (encoder_step ev e) (rem e) (rankE (e_state e)).
Proof.
  intros HJ He. unfold encoder_step.
  replace (match e_state e with E_EOF => Ok (ER_FINISHED, e) | _ => match e_nodes (eadvance e) with [] => Err EUNATCH | n :: up => estep_node ev (eadvance e) n up end end)
    with (match e_nodes (eadvance e) with [] => Err EUNATCH | n :: up => estep_node ev (eadvance e) n up end)
    by (destruct (e_state e); congruence).
  destruct HJ as [Hd HJ]. cbn [eadvance e_nodes].
  destruct (e_nodes e) as [|n up] eqn:Hn; [contradiction|]. destruct HJ as [Hup HJ].
  unfold rem. rewrite Hn. unfold estep_node. cbn [eadvance e_state].
  set (e0 := eadvance e).
  assert (Hn0 : e_nodes e0 = n :: up) by exact Hn.
  assert (Hd0 : len (e_nodes e0) <= NODES_MAX) by (rewrite Hn0; exact Hd).
  destruct (e_state e) eqn:Hs; try contradiction.
  - (* INIT *) destruct HJ as (-> & Hb & Ha & Ht & Hdi & Hm).
    assert (Hk : e_naked e0 = e_naked e) by reflexivity. rewrite Hk.
    destruct (e_naked e) eqn:Nk.
    + assert (Hr : S_ISREG (f_mode (en_file n)) = true) by (unfold e_naked in Nk; rewrite Hn in Nk; exact Nk).
      apply (out_payload (eenter e0 E_IN_PAYLOAD) n [] (rankE E_INIT)); auto; cbn; lia.
    + apply (out_entered (eenter e0 E_ENTERED) n []); auto.
  - (* ENTRY *) unfold enc_content. destruct (shall_enumerate (en_file n)) eqn:SE.
    + destruct (S_ISREG (f_mode (en_file n))) eqn:R.
      * apply (out_payload (eenter e0 E_IN_PAYLOAD) n up (rankE E_ENTRY)); auto; cbn; lia.
      * destruct (S_ISDIR (f_mode (en_file n))) eqn:D.
        -- pose proof (out_dirent (eenter e0 E_FIRST_DIRENT) n up (rankE E_ENTRY) eq_refl) as X. rewrite HJ in X.
           apply X; auto. cbn [eenter e_nodes]. rewrite Hn0. reflexivity.
        -- rewrite wbind_ret. cbn [out_ok has_data]. split; [|split; [|reflexivity]].
           ++ unfold J, eenter. cbn. rewrite Hn. auto.
           ++ unfold rem, eenter, e0, eadvance. cbn. rewrite Hn. change (len (@nil N)) with 0. rewrite N.add_0_r. reflexivity.
    + destruct (S_ISDIR (f_mode (en_file n))) eqn:D.
      * apply (out_goodbye (eenter e0 E_GOODBYE) n up (rankE E_ENTRY)); auto.
      * rewrite wbind_ret. cbn [out_ok has_data]. split; [|split; [|reflexivity]].
        -- unfold J, eenter. cbn. rewrite Hn. auto.
        -- unfold rem, eenter, e0, eadvance. cbn. rewrite Hn. change (len (@nil N)) with 0. rewrite N.add_0_r. reflexivity.
  - (* IN_PAYLOAD *) destruct HJ as (R & P1 & P2).
    apply (out_payload e0 n up (rankE E_IN_PAYLOAD)); auto. cbn; lia.
  - (* FILENAME *) destruct HJ as (name & ch & l & D & Hdi & Hc & Hl).
    change (e_child e0) with (e_child e). rewrite Hc.
    assert (FO : exists k, free_of (n :: up) = S k /\ free_of (mkEnode ch None None :: n :: up) = k).
    { unfold free_of. rewrite !len_cons in *. exists (N.to_nat (NODES_MAX - (1 + (1 + len up)))). split; [|reflexivity]. lia. }
    destruct FO as (k & FO1 & FO2).
    destruct (N.eqb_spec (f_mode ch) 0) as [M | M].
    + rewrite FO1. cbn [sub_of]. rewrite enc_file_eq, M. reflexivity.
    + set (nn := mkEnode ch None None).
      pose proof (out_entered (eenter (eset e0 (nn :: n :: up) None) E_ENTERED) nn (n :: up) (rankE E_FILENAME)) as X.
      rewrite FO1. cbn [sub_of]. fold nn in FO2. rewrite FO2 in X. apply X; auto.
      * rewrite !len_cons in *. unfold NODES_MAX in *. lia.
      * constructor; [|exact Hup]. split; [exact D|]. eauto.
  - (* GOODBYE *) cbn [out_ok has_data]. split; [|split; [|reflexivity]].
    + unfold J, eenter. cbn. rewrite Hn. auto.
    + unfold rem, eenter, e0, eadvance. cbn. rewrite Hn. change (len (@nil N)) with 0. rewrite N.add_0_r. reflexivity.
  - (* FINALIZE *) destruct up as [|p up].
    + reflexivity.
    + apply (out_next_dirent (eenter (eset e0 (p :: up) (e_child e0)) E_NEXT_DIRENT) p up (rankE E_FINALIZE)); auto.
      cbn [eenter eset e_nodes]. rewrite !len_cons in *. lia.
Qed.
End Enc.
