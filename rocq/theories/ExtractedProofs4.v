(** The tree that the observations of a decoder build up. *)
From Coq Require Import Permutation Sorted.
From Verif Require Import Base FeatureFlags ArchiveBase Decoder DecoderSpec DecoderProofs5 Fs Extract ExtractSpec ExtractedSpec.
Local Open Scope N_scope.

(** A file that is being read: its name, what is known about it, the files in it and its contents so far. *)
Record frame := mkFrame { fr_name : list N; fr_entry : dentry; fr_kids : list (list N * tree); fr_data : list N }.
Inductive build := Building (st : list frame) | Complete (t : tree) | Broken.

Definition tree_of (f : frame) : tree :=
  let e := fr_entry f in let m := dt_meta e in
  if S_ISREG (m_mode m) then TReg m (fr_data f)
  else if S_ISDIR (m_mode m) then TDir m (fr_kids f)
  else match dt_symlink e, dt_dev e with
       | Some t, _ => TLnk m t
       | None, Some (x, y) => TDev m x y
       | None, None => TOther m
       end.
Definition close (f : frame) (st : list frame) : build :=
  match st with
  | [] => Complete (tree_of f)
  | p :: st => Building (mkFrame (fr_name p) (fr_entry p) (fr_kids p ++ [(fr_name f, tree_of f)]) (fr_data p) :: st)
  end.
Definition fits (name : list N) (st : list frame) : bool :=
  match st with [] => true | p :: _ => forallb (fun k => match strcmp (fst k) name with Lt => true | _ => false end) (fr_kids p) end.
Definition feed (g : build) (o : obs) : build :=
  match g, o with
  | Building st, OFile path e => if fits (last path []) st then Building (mkFrame (last path []) e [] [] :: st) else Broken
  | Building (f :: st), OByte b => Building (mkFrame (fr_name f) (fr_entry f) (fr_kids f) (fr_data f ++ [b]) :: st)
  | Building (f :: st), ODone _ => close f st
  | _, _ => Broken
  end.
Definition feeds (g : build) (l : list obs) : build := fold_left feed l g.
Lemma feeds_app g l l' : feeds g (l ++ l') = feeds (feeds g l) l'.
Proof. apply fold_left_app. Qed.
Lemma feeds_cons g o l : feeds g (o :: l) = feeds (feed g o) l.
Proof. reflexivity. Qed.
Lemma feeds_file st path e l : fits (last path []) st = true -> feeds (Building st) (OFile path e :: l) = feeds (Building (mkFrame (last path []) e [] [] :: st)) l.
Proof. intros F. rewrite feeds_cons. cbn [feed]. rewrite F. destruct st; reflexivity. Qed.
Lemma feeds_broken l : feeds Broken l = Broken.
Proof. induction l; cbn; auto. Qed.
Lemma feeds_bytes data : forall n e k d st, feeds (Building (mkFrame n e k d :: st)) (map OByte data) = Building (mkFrame n e k (d ++ data) :: st).
Proof.
  induction data as [|b data IH]; intros n e k d st; [cbn; rewrite app_nil_r; reflexivity|]. cbn [map]. unfold feeds in *. cbn [fold_left feed fr_name fr_entry fr_kids fr_data]. rewrite IH, <- app_assoc. reflexivity.
Qed.
Lemma fits_iff name p st : fits name (p :: st) = true <-> Forall (fun k => str_lt (fst k) name) (fr_kids p).
Proof.
  cbn [fits]. rewrite forallb_forall, Forall_forall. unfold str_lt. split; intros H k Hk; specialize (H k Hk); destruct (strcmp _ _); congruence || reflexivity.
Qed.

Lemma tree_ind2 (P : tree -> Prop) : (forall m d, P (TReg m d)) -> (forall m ents, Forall (fun e => P (snd e)) ents -> P (TDir m ents)) -> (forall m t, P (TLnk m t)) ->
  (forall m x y, P (TDev m x y)) -> (forall m, P (TOther m)) -> forall t, P t.
Proof.
  intros H1 H2 H3 H4 H5. fix IH 1. intros [m d|m ents|m t|m x y|m]; [apply H1| |apply H3|apply H4|apply H5]. apply H2. induction ents as [|[n c] ents IHe]; constructor; [apply IH|exact IHe].
Qed.

(** The types are as the modes say. *)
Fixpoint typed (t : tree) : Prop :=
  match t with
  | TReg m data => S_ISREG (m_mode m) = true
  | TDir m ents => S_ISDIR (m_mode m) = true /\ (fix all l := match l with [] => True | (n, c) :: l => typed c /\ all l end) ents
  | TLnk m target => S_ISLNK (m_mode m) = true
  | TDev m x y => (S_ISBLK (m_mode m) || S_ISCHR (m_mode m))%bool = true
  | TOther m => (S_ISFIFO (m_mode m) || S_ISSOCK (m_mode m))%bool = true
  end.
Lemma valid_typed t : valid_tree t -> typed t.
Proof.
  induction t as [m d|m ents IH|m t|m x y|m] using tree_ind2; cbn [valid_tree typed]; try tauto.
  intros (_ & H & A). split; [exact H|]. clear H. induction ents as [|[n c] ents IHe]; [exact I|]. apply Forall_cons_iff in IH. destruct IH as [I1 I2]. destruct A as (_ & A1 & A2). split; [apply I1, A1|]. apply IHe; assumption.
Qed.

Theorem feeds_tree t : forall path st, typed t -> ordered t -> fits (last path []) st = true ->
  exists f, fr_name f = last path [] /\ tree_of f = t /\ feeds (Building st) (tree_obs path t) = close f st.
Proof.
  induction t as [m d|m ents IH|m t|m x y|m] using tree_ind2; intros path st V O F; cbn [typed tree_obs] in *.
  - exists (mkFrame (last path []) (mkDentry m None None (Some (len d))) [] d). split; [reflexivity|]. split; [unfold tree_of; cbn; rewrite V; reflexivity|].
    rewrite feeds_file by exact F. rewrite feeds_app, feeds_bytes. reflexivity.
  - destruct V as (V2 & V3). cbn [ordered] in O. destruct O as [O1 O2].
    assert (Nr : S_ISREG (m_mode m) = false) by (apply (type_excl _ S_IFDIR S_IFREG); [discriminate|exact V2]).
    exists (mkFrame (last path []) (mkDentry m None None None) ents []). split; [reflexivity|]. split; [unfold tree_of; cbn; rewrite Nr, V2; reflexivity|].
    rewrite feeds_file by exact F. rewrite feeds_app.
    assert (G : forall l k, Forall (fun e => forall path st, typed (snd e) -> ordered (snd e) -> fits (last path []) st = true ->
        exists f, fr_name f = last path [] /\ tree_of f = snd e /\ feeds (Building st) (tree_obs path (snd e)) = close f st) l ->
      (fix all l := match l with [] => True | (n, c) :: l => typed c /\ all l end) l ->
      (fix all l := match l with [] => True | (n, c) :: l => ordered c /\ all l end) l -> StronglySorted (fun a b => str_lt (fst a) (fst b)) (k ++ l) ->
      feeds (Building (mkFrame (last path []) (mkDentry m None None None) k [] :: st)) (concat (map (fun e => tree_obs (path ++ [fst e]) (snd e)) l)) =
      Building (mkFrame (last path []) (mkDentry m None None None) (k ++ l) [] :: st)).
    { clear. induction l as [|[n c] l IHl]; intros k HF HV HO HS; [rewrite app_nil_r; reflexivity|]. cbn [map concat fst snd]. rewrite feeds_app.
      apply Forall_cons_iff in HF. destruct HF as [H1 H2]. destruct HV as (V2 & V3). destruct HO as [O1 O2].
      assert (Fi : fits (last (path ++ [n]) []) (mkFrame (last path []) (mkDentry m None None None) k [] :: st) = true).
      { rewrite last_last. apply fits_iff. cbn [fr_kids]. clear -HS. induction k as [|a k IH]; [constructor|]. cbn in HS. apply StronglySorted_inv in HS. destruct HS as [S1 S2].
        constructor; [|apply IH, S1]. rewrite Forall_forall in S2. specialize (S2 (n, c) ltac:(apply in_or_app; right; left; reflexivity)). exact S2. }
      destruct (H1 (path ++ [n]) _ V2 O1 Fi) as (f & F1 & F2 & F3). cbn [snd] in *. rewrite F3. cbn [close fr_name fr_entry fr_kids fr_data]. rewrite F1, F2, last_last.
      rewrite (IHl (k ++ [(n, c)]) H2 V3 O2) by (rewrite <- app_assoc; exact HS). rewrite <- app_assoc. reflexivity. }
    rewrite (G ents [] IH V3 O2 O1). reflexivity.
  - rename V into V2. exists (mkFrame (last path []) (mkDentry m (Some t) None None) [] []). split; [reflexivity|]. split.
    + unfold tree_of. cbn. unfold S_ISREG, S_ISDIR. rewrite (type_excl (m_mode m) S_IFLNK S_IFREG), (type_excl (m_mode m) S_IFLNK S_IFDIR); auto; discriminate.
    + rewrite feeds_file by exact F. reflexivity.
  - rename V into V2. exists (mkFrame (last path []) (mkDentry m None (Some (x, y)) None) [] []). split; [reflexivity|]. split.
    + unfold tree_of. cbn. unfold S_ISREG, S_ISDIR. apply orb_true_iff in V2. destruct V2 as [V2 | V2];
        [rewrite (type_excl (m_mode m) S_IFBLK S_IFREG), (type_excl (m_mode m) S_IFBLK S_IFDIR)|rewrite (type_excl (m_mode m) S_IFCHR S_IFREG), (type_excl (m_mode m) S_IFCHR S_IFDIR)]; auto; discriminate.
    + rewrite feeds_file by exact F. reflexivity.
  - rename V into V2. exists (mkFrame (last path []) (mkDentry m None None None) [] []). split; [reflexivity|]. split.
    + unfold tree_of. cbn. unfold S_ISREG, S_ISDIR. apply orb_true_iff in V2. destruct V2 as [V2 | V2];
        [rewrite (type_excl (m_mode m) S_IFIFO S_IFREG), (type_excl (m_mode m) S_IFIFO S_IFDIR)|rewrite (type_excl (m_mode m) S_IFSOCK S_IFREG), (type_excl (m_mode m) S_IFSOCK S_IFDIR)]; auto; discriminate.
    + rewrite feeds_file by exact F. reflexivity.
Qed.
