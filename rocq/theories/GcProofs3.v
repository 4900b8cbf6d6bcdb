(** Garbage collection: what is gone afterwards, if nothing fails. *)
From Coq Require Import Permutation.
From Verif Require Import Base ChunkId ChunkIdProofs Posix PosixProofs ChunkFile Store StoreSpec StoreProofs1 StoreProofs4 Index IndexSpec Gc GcSpec GcProofs1 GcProofs2.
Local Open Scope N_scope.

(** Gone, or a directory. *)
Definition gone (w : world) (q : list N) : Prop := name_at w q = None \/ name_at w q = Some NDir.

Lemma pruned_gone used V w w' q : pruned used V w w' -> gone w q -> gone w' q.
Proof.
  intros (_ & _ & _ & H) G. destruct (H q) as [E|(E & _)]; [|left; exact E]. unfold gone. rewrite E. exact G.
Qed.

Lemma unlink_exists w p : exists w' r, sys false w (SUnlink p) w' r.
Proof.
  destruct (name_at w p) as [n|] eqn:E; [|eexists; eexists; apply s_unlink_noent; exact E].
  destruct n; try (eexists; eexists; eapply s_unlink; [exact E|discriminate]). eexists. eexists. apply s_unlink_dir. exact E.
Qed.

Lemma rmdir_exists w p : exists w' r, sys false w (SRmdir p) w' r.
Proof.
  destruct (name_at w p) as [n|] eqn:E; [|eexists; eexists; apply s_rmdir_noent; exact E].
  destruct n; try (eexists; eexists; eapply s_rmdir_notdir; [exact E|discriminate]).
  destruct (existsb (in_dir p) (w_names w)) eqn:X; eexists; eexists; [apply s_rmdir_notempty|apply s_rmdir]; assumption.
Qed.

Lemma unlink_gone w p w' r : sys false w (SUnlink p) w' r -> gone w' p.
Proof.
  intros H. inversion H; subst; try discriminate; unfold gone; [|auto..]. left. rewrite name_del, beq_refl. reflexivity.
Qed.

Lemma gc_files_ends used root sub l k Q : (forall e, In e l -> no_slash (fst e)) -> forall w,
  (forall w1, pruned used (eq (root ++ sub)) w w1 ->
     (forall e id, In e l -> is_chunk_file e = true -> chunk_id_parse (before_dot (fst e)) = Some id -> ~ In id used -> gone w1 (join (entry_dir root sub) (fst e))) ->
     ends false w1 k Q) ->
  ends false w (gc_files false used root sub l k) Q.
Proof.
  intros Hl. induction l as [|e l IH]; intros w Hk; cbn [gc_files].
  - apply Hk; [apply pruned_refl|intros e id []].
  - assert (forall e, In e l -> no_slash (fst e)) as Hl' by (intros x Hx; apply Hl; right; exact Hx). specialize (IH Hl').
    assert ((is_chunk_file e = true -> forall id, chunk_id_parse (before_dot (fst e)) = Some id -> In id used) -> ends false w (gc_files false used root sub l k) Q) as Skip.
    { intros He. apply IH. intros w1 P1 G. apply Hk; [exact P1|]. intros x id [<-|Hx] H1 H2 H3; [|eapply G; eauto]. exfalso. apply H3. eapply He; eauto. }
    destruct (is_chunk_file e) eqn:Ec; cbn [negb]; [|apply Skip; discriminate].
    destruct (chunk_id_parse (before_dot (fst e))) as [id|] eqn:Ei; [|apply Skip; discriminate].
    destruct (used_contains used id) eqn:Eu; [apply Skip; intros _ i Hi; apply contains_In in Eu; congruence|].
    cbn [ends]. split; [apply unlink_exists|]. intros w1 r1 Hs.
    assert (pruned used (eq (root ++ sub)) w w1) as P1.
    { eapply unlink_pruned; [exact Hs|]. exists (entry_dir root sub), (fst e), id. split; [reflexivity|]. split; [apply Hl; left; reflexivity|].
      split; [unfold is_chunk_file in Ec; destruct (snd e); try discriminate; apply andb_true_iff in Ec; apply Ec|].
      split; [exact Ei|apply contains_false; exact Eu]. }
    pose proof (unlink_gone _ _ _ _ Hs) as G1.
    assert (forall v, pruned used (eq (root ++ sub)) w1 v -> ends false v (gc_files false used root sub l k) Q) as Go.
    { intros v Pv. apply IH. intros w2 P2 G. apply Hk; [eapply pruned_trans; [exact P1|]; eapply pruned_trans; eauto|].
      intros x i [<-|Hx] H1 H2 H3; [|eapply G; eauto]. eapply pruned_gone; [exact P2|]. eapply pruned_gone; [exact Pv|exact G1]. }
    destruct r1 as [n|fd|b|nl|er]; [| | | |apply Go; apply pruned_refl];
      (cbn [ends]; split; [apply rmdir_exists|]; intros w2 r2 Hs2; apply Go; eapply rmdir_pruned; [exact Hs2|reflexivity]).
Qed.

Lemma assoc_in {A} (l : list (list N * A)) p x : assoc l p = Some x -> In (p, x) l.
Proof.
  induction l as [|[q y] l IH]; cbn; [discriminate|]. destruct (beq q p) eqn:E; [|auto].
  apply beq_eq in E. intros H. left. congruence.
Qed.

Lemma in_assoc {A} (l : list (list N * A)) p x : In (p, x) l -> exists y, assoc l p = Some y.
Proof.
  induction l as [|[q y] l IH]; cbn; [intros []|]. destruct (beq q p) eqn:E; [eauto|]. intros [H|H]; [|auto].
  assert (q = p) as -> by congruence. rewrite beq_refl in E. discriminate.
Qed.

Lemma path_parts p : dirname p <> [] -> p = dirname p ++ 47 :: basename p.
Proof.
  unfold dirname, basename. rewrite <- (rev_involutive p) at 2. generalize (rev p) as r. clear p. intros r.
  induction r as [|c r IH]; cbn [drop_last_component until_slash]; [intros H; exfalso; apply H; reflexivity|].
  destruct (c =? 47) eqn:E.
  - intros _. cbn [rev]. apply N.eqb_eq in E. subst c. reflexivity.
  - intros H. cbn [rev]. rewrite (IH H) at 1. rewrite <- !app_assoc. reflexivity.
Qed.

Lemma entry_in w d e : In e (dir_entries w d) -> fst e = [46] \/ fst e = [46; 46] \/
  exists p, In (p, snd e) (w_names w) /\ dirname p = d /\ basename p = fst e /\ fst e <> [].
Proof.
  intros [<-|[<-|H]]; [auto|auto|]. right. right. apply in_map_iff in H. destruct H as ([p n] & <- & H). cbn [fst snd].
  apply filter_In in H. destruct H as [H1 H2]. apply andb_true_iff in H2. destruct H2 as [H2 H3]. unfold in_dir in H2. cbn [fst] in *.
  apply beq_eq in H2. exists p. split; [exact H1|]. split; [exact H2|]. split; [reflexivity|]. intros X. rewrite X in H3. discriminate.
Qed.

Lemma entry_listed w d n x : d <> [] -> no_slash n -> n <> [] -> name_at w (d ++ 47 :: n) = Some x -> In (n, x) (dir_entries w d).
Proof.
  intros Hd Hn Hne H. unfold name_at in H. apply assoc_in in H. right. right. apply in_map_iff. exists (d ++ 47 :: n, x). cbn [fst snd].
  assert (basename (d ++ 47 :: n) = n) as B.
  { pose proof (path_parts (d ++ 47 :: n)) as P. rewrite dirname_app in P by exact Hn. specialize (P Hd). apply app_inv_head in P. congruence. }
  split; [rewrite B; reflexivity|]. apply filter_In. split; [exact H|]. unfold in_dir. cbn [fst]. rewrite dirname_app, beq_refl, B by exact Hn.
  apply negb_true_iff, N.eqb_neq. intros Z. apply Hne. apply len_zero_nil. exact Z.
Qed.

Lemma NoDup_basenames w d : d <> [] -> NoDup (map fst (w_names w)) ->
  NoDup (map fst (map (fun e => (basename (fst e), snd e)) (filter (fun e => in_dir d e && negb (len (basename (fst e)) =? 0)) (w_names w)))).
Proof.
  intros Hd. induction (w_names w) as [|[p n] l IH]; intros H; [constructor|]. cbn [map] in H. inversion H as [|? ? Hp Hl]; subst. specialize (IH Hl).
  cbn [filter]. destruct (in_dir d (p, n) && _) eqn:E; [|exact IH]. cbn [map]. constructor; [|exact IH].
  intros Hin. apply Hp. apply in_map_iff in Hin. destruct Hin as (y & Ey & Hy). apply in_map_iff in Hy. destruct Hy as ([p' n'] & <- & Hy).
  apply filter_In in Hy. destruct Hy as [Hy1 Hy2]. apply andb_true_iff in E, Hy2. destruct E as [E _], Hy2 as [Hy2 _]. unfold in_dir in *. cbn [fst snd] in *.
  apply beq_eq in E, Hy2. assert (p' = p) as ->; [|apply in_map_iff; exists (p, n'); auto].
  rewrite (path_parts p) by congruence. rewrite (path_parts p') by congruence. congruence.
Qed.

Lemma gc_subdirs_ends used root (Q : world -> res unit -> Prop) : root <> [] -> forall l w,
  (forall e, In e l -> no_slash (fst e)) -> NoDup (map fst l) ->
  (forall e, In e l -> fst e <> [46] -> fst e <> [46; 46] -> name_at w (root ++ fst e) = Some NDir) ->
  (forall w1, pruned used (in_root root) w w1 ->
     (forall sub n id, In sub (map fst l) -> sub <> [46] -> sub <> [46; 46] -> no_slash n -> n <> [] -> str_at n 0 <> 46 -> endswith n CACNK = true ->
        chunk_id_parse (before_dot n) = Some id -> ~ In id used -> gone w1 ((root ++ sub) ++ 47 :: n)) -> Q w1 (Ok tt)) ->
  ends false w (gc_subdirs false used root l) Q.
Proof.
  intros Hroot. induction l as [|[sub nd] l IH]; intros w Hl Hnd Hdirs Hk; cbn [gc_subdirs].
  - apply Hk; [apply pruned_refl|]. intros sub n id [].
  - assert (no_slash sub) as Hsub by (apply (Hl (sub, nd)); left; reflexivity).
    cbn [map fst] in Hnd. inversion Hnd as [|? ? Hni Hnd']; subst.
    assert (ends false w (Sys (SList (entry_dir root sub)) (fun r => match r with
              | RNames fs => gc_files false used root sub fs (gc_subdirs false used root l)
              | RFail e => Ret (Err e) | _ => Ret UB end)) Q) as Go.
    { cbn [ends]. split; [eexists; eexists; apply s_list; apply Permutation_refl|]. intros w1 r1 Hs.
      destruct (sys_list _ _ _ _ _ Hs) as [(X & _)|(fs & -> & -> & HP)]; [discriminate|].
      apply gc_files_ends; [intros e; apply (entries_no_slash _ _ _ _ HP)|]. intros w1 P1 G1.
      apply IH; [intros e Hin; apply Hl; right; exact Hin|exact Hnd'| |].
      - intros e Hin N1 N2. pose proof (Hdirs e (or_intror Hin) N1 N2) as Hd. destruct P1 as (_ & _ & _ & P1).
        destruct (P1 (root ++ fst e)) as [E|(_ & n & Hn & [[Hx _]|(_ & Hx & _)])]; [congruence|exfalso; congruence|].
        apply app_inv_head in Hx. exfalso. apply Hni. rewrite Hx. apply in_map. exact Hin.
      - intros w2 P2 G2. apply Hk.
        + eapply pruned_trans; [|exact P2]. eapply pruned_weaken; [|exact P1]. intros q <-. exists sub. auto.
        + intros s n id Hs1 N1 N2 Hn Hne Hdot He Hp Hu. destruct Hs1 as [<-|Hs1]; [|eapply G2; eauto].
          cbn [fst] in *. assert (entry_dir root sub = root ++ sub) as Ed.
          { unfold entry_dir. destruct (beq sub [46]) eqn:E1; [apply beq_eq in E1; contradiction|]. destruct (beq sub [46; 46]) eqn:E2; [apply beq_eq in E2; contradiction|]. reflexivity. }
          assert (root ++ sub <> []) as Hrs by (destruct root; [contradiction|discriminate]).
          destruct (name_at w ((root ++ sub) ++ 47 :: n)) as [x|] eqn:Ex.
          * destruct x eqn:Ek.
            all: try (eapply pruned_gone; [exact P2|]; eapply pruned_gone; [exact P1|]; unfold gone; rewrite Ex; auto; fail).
            all: (apply entry_listed in Ex; [|assumption..]; rewrite <- Ed in Ex; apply (Permutation_in _ (Permutation_sym HP)) in Ex;
              eapply pruned_gone; [exact P2|];
              pose proof (G1 _ id Ex) as G; cbn [fst] in G; rewrite Ed in G; unfold join in G; destruct (root ++ sub) eqn:Er; [contradiction|];
              apply G; [|exact Hp|exact Hu]; unfold is_chunk_file; cbn [fst snd]; rewrite He; apply N.eqb_neq in Hdot; rewrite Hdot; reflexivity).
          * eapply pruned_gone; [exact P2|]. eapply pruned_gone; [exact P1|]. left. exact Ex. }
    destruct (beq sub [46] || beq sub [46; 46]) eqn:Edots; [exact Go|].
    apply orb_false_iff in Edots. destruct Edots as [E1 E2].
    assert (sub <> [46]) as N1 by (intros ->; rewrite beq_refl in E1; discriminate).
    assert (sub <> [46; 46]) as N2 by (intros ->; rewrite beq_refl in E2; discriminate).
    pose proof (Hdirs (sub, nd) (or_introl eq_refl) N1 N2) as Hd. cbn [fst] in Hd.
    change (ends false w (Sys (SOpenDir (root ++ sub)) (fun r => match r with RFail EISDIR => gc_subdirs false used root l | RFail e => Ret (Err e) | _ =>
      Sys (SList (entry_dir root sub)) (fun r => match r with
              | RNames fs => gc_files false used root sub fs (gc_subdirs false used root l)
              | RFail e => Ret (Err e) | _ => Ret UB end) end)) Q).
    split; [eexists; eexists; apply s_opendir; exact Hd|]. intros w1 r1 Hs.
    assert (w1 = w /\ r1 = RNum 0) as [-> ->]; [|exact Go]. inversion Hs; subst; try discriminate; try congruence. auto.
Qed.

Lemma gc_cleanup_ends used root w : tidy w root ->
  ends false w (gc_cleanup_unused false used root) (fun w' r => r = Ok tt /\
    forall id, id_ok id = true -> ~ In id used -> name_at w (dirname (chunk_name root id COMPRESSED)) = Some NDir -> gone w' (chunk_name root id COMPRESSED)).
Proof.
  intros ((d & Hd & Er) & Hr & Hnd & Hdots & Hsub). unfold gc_cleanup_unused. cbn [ends].
  split; [eexists; eexists; apply s_opendir; exact Hr|]. intros w1 r1 Hs1.
  assert (w1 = w /\ r1 = RNum 0) as [-> ->] by (inversion Hs1; subst; try discriminate; try congruence; auto). clear Hs1.
  assert (dirname root = d) as Dr by (rewrite Er; apply (dirname_app d []); intros []).
  split; [eexists; eexists; apply s_list; apply Permutation_refl|]. intros w1 r1 Hs.
  destruct (sys_list _ _ _ _ _ Hs) as [(X & _)|(l & -> & -> & HP)]; [discriminate|]. rewrite Dr in *.
  apply gc_subdirs_ends.
  - rewrite Er. destruct d; discriminate.
  - intros e. apply (entries_no_slash _ _ _ _ HP).
  - eapply Permutation_NoDup; [apply Permutation_map, Permutation_sym, HP|]. unfold dir_entries. cbn [map fst].
    assert (forall x, In x (map fst (map (fun e : list N * node => (basename (fst e), snd e)) (filter (fun e => in_dir d e && negb (len (basename (fst e)) =? 0)) (w_names w)))) -> x <> [46] /\ x <> [46; 46]) as ND.
    { intros x Hx. apply in_map_iff in Hx. destruct Hx as (y & <- & Hy). apply in_map_iff in Hy. destruct Hy as ([p n] & <- & Hy). cbn [fst snd].
      apply filter_In in Hy. apply (Hdots p n). apply Hy. }
    constructor; [intros [H|H]; [discriminate|destruct (ND _ H) as [H1 _]; apply H1; reflexivity]|].
    constructor; [intros H; destruct (ND _ H) as [_ H1]; apply H1; reflexivity|]. apply NoDup_basenames; assumption.
  - intros e Hin N1 N2. apply (Permutation_in _ HP) in Hin. apply entry_in in Hin. destruct Hin as [H|[H|(p & Hp & Hpd & Hb & Hne)]]; [contradiction..|].
    assert (p = root ++ fst e) as Ep. { rewrite (path_parts p) by congruence. rewrite Hpd, Hb, Er, <- app_assoc. reflexivity. }
    destruct (in_assoc _ _ _ Hp) as [y Hy]. unfold name_at. rewrite <- Ep, Hy. f_equal. apply assoc_in in Hy. apply (Hsub p y Hy Hpd). congruence.
  - intros w1 P1 G. split; [reflexivity|]. intros id Hid Hu Hsd. unfold chunk_name in *. rewrite dirname_path in Hsd by apply cacnk_no_slash. unfold subdir in Hsd.
    rewrite format_path_eq. pose proof (id_ok_format _ Hid) as L64.
    assert (firstn 4 (chunk_id_format id) <> []) as Hne.
    { intros X. apply (f_equal (@length N)) in X. rewrite firstn_length in X. cbn [length] in X. lia. }
    assert (no_slash (firstn 4 (chunk_id_format id))) as Hns.
    { intros X. apply (format_no_slash id). rewrite <- (firstn_skipn 4 (chunk_id_format id)). apply in_or_app. left. exact X. }
    assert (forall c, In c (chunk_id_format id) -> c <> 46) as ND.
    { intros c Hc. pose proof (format_no_dot id) as F. rewrite forallb_forall in F. specialize (F _ Hc). cbn in F. lia. }
    assert (forall c, In c (firstn 4 (chunk_id_format id)) -> c <> 46) as ND4.
    { intros c Hc. apply ND. rewrite <- (firstn_skipn 4 (chunk_id_format id)). apply in_or_app. left. exact Hc. }
    apply (G _ _ id).
    + assert (In (firstn 4 (chunk_id_format id), NDir) (dir_entries w d)) as Hin.
      { apply entry_listed; [assumption..|]. rewrite Er in Hsd. rewrite <- app_assoc in Hsd. exact Hsd. }
      apply (Permutation_in _ (Permutation_sym HP)) in Hin. apply (in_map fst) in Hin. exact Hin.
    + intros X. apply (ND4 46); [rewrite X; left; reflexivity|reflexivity].
    + intros X. apply (ND4 46); [rewrite X; left; reflexivity|reflexivity].
    + apply no_slash_app; [apply format_no_slash|apply cacnk_no_slash].
    + destruct (chunk_id_format id); [discriminate|discriminate].
    + unfold str_at. destruct (chunk_id_format id) as [|c f] eqn:Ef; [discriminate|]. cbn [app nth]. apply ND. left. reflexivity.
    + unfold endswith. rewrite len_app. change (len CACNK) with 6. change (len cacnk) with 6.
      replace (len (chunk_id_format id) + 6 - 6) with (len (chunk_id_format id)) by lia. rewrite dropN_app_exact by reflexivity. rewrite beq_refl.
      apply andb_true_iff. split; [lia|reflexivity].
    + unfold cacnk. rewrite before_dot_app by apply format_no_dot. apply parse_format. exact Hid.
    + exact Hu.
Qed.

(** A file in the store's directory that is no directory. *)
Lemma gc_subdirs_stray used root s x l : forall w w' r,
  (forall e, In e l -> no_slash (fst e)) -> s <> [46] -> s <> [46; 46] ->
  In s (map fst l) -> name_at w (root ++ s) = Some x -> x <> NDir -> ~ condemned used (root ++ s) ->
  exec false w (gc_subdirs false used root l) w' r -> exists e, r = Err e.
Proof.
  induction l as [|[sub nd] l IH]; intros w w' r Hl N1 N2 Hin Hn Hx Hdo H; [destruct Hin|]. cbn [gc_subdirs] in H.
  assert (no_slash sub) as Hsub by (apply (Hl (sub, nd)); left; reflexivity).
  assert (forall e, In e l -> no_slash (fst e)) as Hl' by (intros e He; apply Hl; right; exact He).
  assert (sub <> s -> forall w, name_at w (root ++ s) = Some x -> exec false w (Sys (SList (entry_dir root sub)) (fun r => match r with
              | RNames fs => gc_files false used root sub fs (gc_subdirs false used root l)
              | RFail e => Ret (Err e) | _ => Ret UB end)) w' r -> exists e, r = Err e) as Go.
  { clear H w Hn. intros Hne w Hn H. apply exec_sys_inv in H. destruct H as (w1 & r1 & Hs & H).
    destruct (sys_list _ _ _ _ _ Hs) as [(X & _)|(fs & -> & -> & HP)]; [discriminate|].
    apply gc_files_exec in H; [|intros e; apply (entries_no_slash _ _ _ _ HP)]. destruct H as (w1 & (_ & _ & _ & P1) & H & _).
    destruct Hin as [Hin|Hin]; [contradiction|]. refine (IH w1 w' r Hl' N1 N2 Hin _ Hx Hdo H).
    destruct (P1 (root ++ s)) as [E|(_ & n & Hn' & [[_ D]|(-> & _)])]; [rewrite E; exact Hn|contradiction|]. exfalso. congruence. }
  destruct (beq sub [46] || beq sub [46; 46]) eqn:Edots.
  - apply (Go) with (w := w); auto. apply orb_true_iff in Edots. destruct Edots as [E|E]; apply beq_eq in E; congruence.
  - apply exec_sys_inv in H. destruct H as (w1 & r1 & Hs & H). destruct (list_eq_dec N.eq_dec sub s) as [->|Hne].
    + inversion Hs; subst; try congruence. ret H. eauto.
    + inversion Hs; subst; try discriminate.
      * apply (Go Hne) in H; auto.
      * ret H. eauto.
      * ret H. eauto.
Qed.
