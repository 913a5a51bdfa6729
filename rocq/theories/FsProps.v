(** Properties of the file cache used by one thread: C50, C51, C53, C77. *)
From Coq Require Import List ZArith NArith Bool String Lia.
From Verif Require Import Py PyFacts QueryModel FsModel.
Import ListNotations.

Lemma fname_eqb_eq : forall a b, fname_eqb a b = true <-> a = b.
Proof.
  intros [v d t|n] [v' d' t'|n']; cbn [fname_eqb]; rewrite ?andb_true_iff, ?str_eqb_eq;
    split; intros H; try discriminate.
  - destruct H as [-> [-> ->]]; reflexivity.
  - injection H; auto.
  - now subst.
  - injection H; auto.
Qed.
Lemma fname_eqb_refl : forall a, fname_eqb a a = true.
Proof. intro a. now apply fname_eqb_eq. Qed.
Lemma fname_eqb_neq : forall a b, fname_eqb a b = false <-> a <> b.
Proof.
  intros a b. rewrite <- (fname_eqb_eq a b). destruct (fname_eqb a b); split; congruence.
Qed.
Lemma fmem_in : forall f l, fmem f l = true <-> In f l.
Proof.
  intros f l. unfold fmem. rewrite existsb_exists. split.
  - intros [x [H1 H2]]. apply fname_eqb_eq in H2. now subst.
  - intros H. exists f. split; auto. apply fname_eqb_refl.
Qed.
Lemma fmem_notin : forall f l, fmem f l = false <-> ~ In f l.
Proof. intros f l. rewrite <- fmem_in. destruct (fmem f l); split; congruence. Qed.

Lemma fread_write : forall k f x g, fread (fwrite k f x) g = if fname_eqb f g then Some x else fread k g.
Proof.
  unfold fread, fwrite. induction k as [|[a y] k IH]; intros f x g; cbn [dict_set dict_get]; [reflexivity|].
  destruct (fname_eqb a f) eqn:E; cbn [dict_get].
  - apply fname_eqb_eq in E. subst a. destruct (fname_eqb f g); reflexivity.
  - destruct (fname_eqb a g) eqn:E'; [|apply IH].
    destruct (fname_eqb f g) eqn:E2; [|reflexivity].
    apply fname_eqb_eq in E', E2. subst. rewrite fname_eqb_refl in E. discriminate.
Qed.
Lemma fread_remove : forall k f g, fread (fremove k f) g = if fname_eqb f g then None else fread k g.
Proof.
  unfold fread, fremove. induction k as [|[a y] k IH]; intros f g; cbn [filter dict_get fst].
  - destruct (fname_eqb f g); reflexivity.
  - destruct (fname_eqb a f) eqn:E; cbn [negb dict_get].
    + apply fname_eqb_eq in E. subst a. rewrite IH. destruct (fname_eqb f g); reflexivity.
    + rewrite IH. destruct (fname_eqb a g) eqn:E'; [|reflexivity].
      apply fname_eqb_eq in E'. subst g. destruct (fname_eqb f a) eqn:E2; [|reflexivity].
      apply fname_eqb_eq in E2. subst. rewrite fname_eqb_refl in E. discriminate.
Qed.
Lemma fread_in : forall k f, fread k f <> None <-> In f (map fst k).
Proof.
  unfold fread. induction k as [|[a y] k IH]; intro f; cbn [dict_get map fst]; [split; [congruence|intros []]|].
  destruct (fname_eqb a f) eqn:E.
  - apply fname_eqb_eq in E. split; [left; auto|congruence].
  - rewrite IH. apply fname_eqb_neq in E. split; [right; auto|intros [X|X]; [contradiction|auto]].
Qed.
Lemma fwrite_nodup : forall k f x, NoDup (map fst k) -> NoDup (map fst (fwrite k f x)).
Proof.
  unfold fwrite. induction k as [|[a y] k IH]; intros f x H; cbn [dict_set map fst].
  - apply NoDup_cons; [intros []|apply NoDup_nil].
  - cbn [map fst] in H. apply NoDup_cons_iff in H. destruct H as [H1 H2].
    destruct (fname_eqb a f) eqn:E; cbn [map fst].
    + now apply NoDup_cons.
    + apply NoDup_cons; [|now apply IH]. intro X. apply H1.
      rewrite <- fread_in. rewrite <- fread_in in X. change (dict_set fname_eqb k f x) with (fwrite k f x) in X. rewrite fread_write in X.
      destruct (fname_eqb f a) eqn:E2; [|exact X].
      apply fname_eqb_eq in E2. subst. rewrite fname_eqb_refl in E. discriminate.
Qed.
Lemma fremove_nodup : forall k f, NoDup (map fst k) -> NoDup (map fst (fremove k f)).
Proof.
  unfold fremove. induction k as [|[a y] k IH]; intros f H; cbn [filter map fst]; [exact H|].
  cbn [map fst] in H. apply NoDup_cons_iff in H. destruct H as [H1 H2].
  destruct (fname_eqb a f) eqn:E; cbn [negb map fst]; [now apply IH|].
  apply NoDup_cons; [|now apply IH]. intro X. apply H1. clear - X.
  apply in_map_iff in X. destruct X as [e [X1 X2]]. apply filter_In in X2. apply in_map_iff. exists e. tauto.
Qed.

(** Removing a list of files. *)
Lemma remove_files_sub : forall fs k k' r, remove_files k fs = (k', r) ->
  NoDup (map fst k) -> NoDup (map fst k') /\
  (forall g, fread k' g = fread k g \/ (fread k' g = None /\ In g fs)).
Proof.
  induction fs as [|f fs IH]; intros k k' r H Hn; cbn [remove_files] in H.
  - injection H as <- <-. auto.
  - destruct (fread k f) eqn:E.
    + destruct (IH _ _ _ H (fremove_nodup _ _ Hn)) as [H1 H2]. split; auto.
      intro g. destruct (H2 g) as [X|[X Y]].
      * rewrite fread_remove in X. destruct (fname_eqb f g) eqn:Ef.
        -- apply fname_eqb_eq in Ef. subst. right. split; auto. now left.
        -- now left.
      * right. split; auto. now right.
    + injection H as <- <-. auto.
Qed.
Lemma remove_files_ok : forall fs k, NoDup fs -> (forall f, In f fs -> fread k f <> None) ->
  exists k', remove_files k fs = (k', RDone) /\
    forall g, fread k' g = if fmem g fs then None else fread k g.
Proof.
  induction fs as [|f fs IH]; intros k Hn H; cbn [remove_files].
  - exists k. split; auto.
  - apply NoDup_cons_iff in Hn. destruct Hn as [N1 N2].
    destruct (fread k f) eqn:E; [|exfalso; apply (H f); [now left|exact E]].
    destruct (IH (fremove k f) N2) as [k' [H1 H2]].
    { intros g Hg. rewrite fread_remove. destruct (fname_eqb f g) eqn:Ef.
      - apply fname_eqb_eq in Ef. now subst.
      - apply H. now right. }
    exists k'. split; auto. intro g. rewrite H2, fread_remove. unfold fmem. cbn [existsb].
    destruct (fname_eqb f g) eqn:Ef.
    + apply fname_eqb_eq in Ef. subst g. rewrite fname_eqb_refl. cbn [orb]. destruct (existsb _ fs); reflexivity.
    + destruct (fname_eqb g f) eqn:Eg; [apply fname_eqb_eq in Eg; subst; rewrite fname_eqb_refl in Ef; discriminate|].
      reflexivity.
Qed.
Lemma remove_files_fail : forall fs k f, In f fs -> fread k f = None ->
  exists k' e, remove_files k fs = (k', RRaised e).
Proof.
  induction fs as [|g fs IH]; intros k f Hin Hr; [contradiction|]. cbn [remove_files].
  destruct (fread k g) eqn:E; [|eauto].
  destruct Hin as [->|Hin]; [congruence|]. apply (IH (fremove k g) f Hin).
  rewrite fread_remove, Hr. destruct (fname_eqb g f); reflexivity.
Qed.

Section Build.
Variable build : str -> str -> str -> str.
Notation fstep := (fstep build).
Notation frun := (frun build).

(** ** Specification *)

(** Every entry holds what its constructor makes. *)
Definition good_disk (k : fdisk) : Prop :=
  NoDup (map fst k) /\ forall v d t x, fread k (FEntry v d t) = Some x -> x = build v d t.
(** The process is not killed while a file is being written, and failing constructors leave no
    file. *)
Definition clean_ending (e : ending) : Prop :=
  match e with Raised (Some _) | Killed (Some _) => False | _ => True end.
Definition clean (o : fop) : Prop :=
  match o with FEnsure _ _ _ e | FGet _ _ e => clean_ending e | _ => True end.
(** The operation asks for the file [f], in a session of the given version. *)
Definition requests (v : str) (o : fop) (f : fname) : Prop :=
  match o with
  | FEnsure d t _ _ | FGet d t _ => f = FEntry v d t
  | _ => False
  end.
Definition requested (v : str) (os : list fop) (f : fname) : Prop := exists o, In o os /\ requests v o f.
Definition is_new (o : fop) : bool := match o with FNew _ => true | _ => false end.
(** One session: no other deck is created. *)
Definition session (os : list fop) : Prop := Forall (fun o => is_new o = false) os.
(** The file was there when the deck was created and an earlier prune found it unused. *)
Definition lost (v : str) (k0 : fdisk) (os : list fop) (f : fname) : Prop :=
  exists a b, os = a ++ FPrune :: b /\ fread k0 f <> None /\ ~ requested v a f.

(** ** Invariants *)
Lemma requested_snoc : forall v os o f, requested v (os ++ [o]) f <-> requested v os f \/ requests v o f.
Proof.
  intros v os o f. unfold requested. split.
  - intros [x [H1 H2]]. apply in_app_iff in H1. destruct H1 as [H1|[<-|[]]]; [left; eauto|right; auto].
  - intros [[x [H1 H2]]|H]; [exists x|exists o]; rewrite in_app_iff; cbn; auto.
Qed.
Lemma lost_snoc : forall v k0 os o f, lost v k0 os f -> lost v k0 (os ++ [o]) f.
Proof.
  intros v k0 os o f [a [b [-> H]]]. exists a, (b ++ [o]). split; auto. now rewrite <- app_assoc.
Qed.

Record inv (v : str) (k0 : fdisk) (os : list fop) (k : fdisk) (c : fsession) : Prop := {
  inv_version : fs_version c = v;
  inv_nodup : NoDup (fs_known c);
  inv_touched : forall f, In f (fs_touched c) <-> requested v os f;
  inv_known : forall f, In f (fs_known c) -> fread k0 f <> None \/ requested v os f;
  inv_start : forall f, fread k0 f <> None -> In f (fs_known c);
  inv_there : forall f, In f (fs_known c) -> fread k f <> None \/ lost v k0 os f }.

Lemma good_write : forall k v d t, good_disk k -> good_disk (fwrite k (FEntry v d t) (build v d t)).
Proof.
  intros k v d t [H1 H2]. split; [now apply fwrite_nodup|]. intros v' d' t' x. rewrite fread_write.
  destruct (fname_eqb (FEntry v d t) (FEntry v' d' t')) eqn:E; [|apply H2].
  apply fname_eqb_eq in E. injection E as -> -> ->. congruence.
Qed.
Lemma good_foreign : forall k n x, good_disk k -> good_disk (fwrite k (FForeign n) x).
Proof.
  intros k n x [H1 H2]. split; [now apply fwrite_nodup|]. intros v' d' t' y. rewrite fread_write.
  cbn [fname_eqb]. apply H2.
Qed.
Lemma good_sub : forall k k', good_disk k -> NoDup (map fst k') ->
  (forall g, fread k' g = fread k g \/ fread k' g = None) -> good_disk k'.
Proof.
  intros k k' [H1 H2] N H. split; auto. intros v d t x E. destruct (H (FEntry v d t)) as [X|X]; [|congruence].
  apply H2. congruence.
Qed.

(** A step of a session. *)
Lemma step_inv : forall v k0 os k c o k' c' r, is_new o = false -> clean o ->
  good_disk k -> inv v k0 os k c -> fstep (k, Some c) o = ((k', c'), r) ->
  good_disk k' /\ (forall c1, c' = Some c1 -> inv v k0 (os ++ [o]) k' c1).
Proof.
  intros v k0 os k c o k' c' r Hn Hc Hg I E. destruct I as [I1 I2 I3 I4 I5 I6].
  destruct o as [w|d t w e|d t e| |n x]; [discriminate| | | |]; cbn [FsModel.fstep snd fst] in E.
  - unfold ensure in E. rewrite I1 in E. set (f := FEntry v d t) in *.
    assert (T : forall g, In g (f :: fs_touched c) <-> requested v (os ++ [FEnsure d t w e]) g).
    { intro g. rewrite requested_snoc. cbn [requests In]. rewrite I3. fold f. intuition congruence. }
    assert (same : forall busy, inv v k0 (os ++ [FEnsure d t w e]) k (mkFS v (f :: fs_touched c) (fs_known c) busy)).
    { intro busy. split; cbn; auto.
      - intros g Hk. destruct (I4 g Hk); auto. right. rewrite requested_snoc. auto.
      - intros g Hk. destruct (I6 g Hk); auto. right. now apply lost_snoc. }
    destruct (fmem f (fs_busy c)).
    + destruct w; injection E as <- <- <-.
      * split; auto. discriminate.
      * split; auto. intros c1 X. injection X as <-. apply same.
    + destruct (fmem f (fs_known c)) eqn:Ek.
      * injection E as <- <- <-. split; auto. intros c1 X. injection X as <-. apply same.
      * destruct e as [|[x|]|[x|]]; cbn [clean clean_ending] in Hc; try contradiction; injection E as <- <- <-.
        -- split; [now apply good_write|]. intros c1 X. injection X as <-.
           apply fmem_notin in Ek. split; cbn [fs_version fs_touched fs_known]; auto.
           ++ now apply NoDup_cons.
           ++ intros g [<-|Hk]; [right; rewrite requested_snoc; right; reflexivity|].
              destruct (I4 g Hk); auto. right. rewrite requested_snoc. auto.
           ++ intros g Hk. right. auto.
           ++ intros g [<-|Hk]; [left; rewrite fread_write, fname_eqb_refl; congruence|].
              destruct (I6 g Hk) as [X|X]; [|right; now apply lost_snoc].
              left. rewrite fread_write. destruct (fname_eqb f g); [congruence|exact X].
        -- split; auto. intros c1 X. injection X as <-. apply same.
        -- split; auto. discriminate.
  - unfold get in E. rewrite I1 in E. set (f := FEntry v d t) in *.
    assert (T : forall g, In g (f :: fs_touched c) <-> requested v (os ++ [FGet d t e]) g).
    { intro g. rewrite requested_snoc. cbn [requests In]. rewrite I3. fold f. intuition congruence. }
    assert (same : inv v k0 (os ++ [FGet d t e]) k (mkFS v (f :: fs_touched c) (fs_known c) (fs_busy c))).
    { split; cbn; auto.
      - intros g Hk. destruct (I4 g Hk); auto. right. rewrite requested_snoc. auto.
      - intros g Hk. destruct (I6 g Hk); auto. right. now apply lost_snoc. }
    destruct (fmem f (fs_known c)) eqn:Ek.
    + destruct (fread k f); injection E as <- <- <-; split; auto; intros c1 X; injection X as <-; apply same.
    + destruct e as [|[x|]|[x|]]; cbn [clean clean_ending] in Hc; try contradiction; injection E as <- <- <-.
      * split; [now apply good_write|]. intros c1 X. injection X as <-.
        apply fmem_notin in Ek. split; cbn [fs_version fs_touched fs_known]; auto.
        -- now apply NoDup_cons.
        -- intros g [<-|Hk]; [right; rewrite requested_snoc; right; reflexivity|].
           destruct (I4 g Hk); auto. right. rewrite requested_snoc. auto.
        -- intros g Hk. right. auto.
        -- intros g [<-|Hk]; [left; rewrite fread_write, fname_eqb_refl; congruence|].
           destruct (I6 g Hk) as [X|X]; [|right; now apply lost_snoc].
           left. rewrite fread_write. destruct (fname_eqb f g); [congruence|exact X].
      * split; auto. intros c1 X. injection X as <-. apply same.
      * split; auto. discriminate.
  - destruct (remove_unused k c) as [k1 r1] eqn:R. injection E as <- <- <-.
    destruct Hg as [G1 G2]. destruct (remove_files_sub _ _ _ _ R G1) as [N S].
    split; [apply good_sub with k; [split; auto|auto|intro g; destruct (S g) as [X|[X _]]; auto]|].
    intros c1 X. injection X as <-. split; auto.
    + intro g. rewrite requested_snoc, I3. cbn [requests]. tauto.
    + intros g Hk. destruct (I4 g Hk); auto. right. rewrite requested_snoc. auto.
    + intros g Hk. destruct (I6 g Hk) as [X|X]; [|right; now apply lost_snoc].
      destruct (S g) as [Y|[Y Z]]; [left; congruence|]. right. exists os, []. split; auto.
      unfold unused in Z. apply filter_In in Z. destruct Z as [Z1 Z2].
      apply negb_true_iff, fmem_notin in Z2. rewrite I3 in Z2. split; [|exact Z2].
      destruct (I4 g Hk); [assumption|contradiction].
  - injection E as <- <- <-. split; [now apply good_foreign|]. intros c1 X. injection X as <-. split; auto.
    + intro g. rewrite requested_snoc, I3. cbn [requests]. tauto.
    + intros g Hk. destruct (I4 g Hk); auto. right. rewrite requested_snoc. auto.
    + intros g Hk. destruct (I6 g Hk) as [X|X]; [|right; now apply lost_snoc].
      left. rewrite fread_write. destruct (fname_eqb (FForeign n) g); [congruence|exact X].
Qed.

Lemma frun_snoc : forall s os o, frun s (os ++ [o]) = fst (fstep (frun s os) o).
Proof. intros. unfold FsModel.frun. now rewrite fold_left_app. Qed.
Lemma frun_app : forall s a b, frun s (a ++ b) = frun (frun s a) b.
Proof. intros. unfold FsModel.frun. now rewrite fold_left_app. Qed.
Lemma dead_step : forall k o, is_new o = false -> fstep (k, None) o = ((k, None), RDead).
Proof. intros k o H. destruct o; [discriminate| | | |]; reflexivity. Qed.

Lemma new_inv : forall k v, good_disk k -> inv v k [] k (fs_new k v).
Proof.
  intros k v [H1 H2]. split; cbn [fs_new fs_version fs_known fs_touched].
  - reflexivity.
  - exact H1.
  - intro f. split; [intros []|intros [o [[] _]]].
  - intros f H. left. now apply fread_in.
  - intros f H. now apply fread_in.
  - intros f H. left. now apply fread_in.
Qed.
Lemma session_inv : forall os v k0, session os -> Forall clean os -> good_disk k0 ->
  let s := frun (k0, None) (FNew v :: os) in
  good_disk (fst s) /\ (forall c, snd s = Some c -> inv v k0 os (fst s) c).
Proof.
  induction os as [|o os IH] using rev_ind; intros v k0 Hs Hc Hg.
  - cbn. split; auto. intros c X. injection X as <-. now apply new_inv.
  - apply Forall_app in Hs, Hc. destruct Hs as [Hs Ho], Hc as [Hc Hco].
    apply Forall_inv in Ho, Hco. destruct (IH v k0 Hs Hc Hg) as [G I].
    change (FNew v :: os ++ [o]) with ((FNew v :: os) ++ [o]). rewrite frun_snoc.
    destruct (frun (k0, None) (FNew v :: os)) as [k [c|]].
    + destruct (fstep (k, Some c) o) as [[k' c'] r] eqn:E. cbn [fst snd] in *.
      exact (step_inv v k0 os k c o k' c' r Ho Hco G (I c eq_refl) E).
    + rewrite dead_step by exact Ho. cbn [fst snd] in *. split; auto. discriminate.
Qed.
(** Over several sessions the disk stays good. *)
Lemma history_good : forall os s, Forall clean os -> good_disk (fst s) -> 
  (forall c, snd s = Some c -> exists v k0 os0, inv v k0 os0 (fst s) c) -> good_disk (fst (frun s os)).
Proof.
  induction os as [|o os IH]; intros s Hc Hg Hi; [exact Hg|].
  apply Forall_cons_iff in Hc. destruct Hc as [Hco Hc].
  unfold FsModel.frun. cbn [fold_left]. apply (IH (fst (fstep s o)) Hc).
  - destruct s as [k [c|]]; [|destruct o; exact Hg].
    destruct (is_new o) eqn:En; [destruct o; try discriminate; exact Hg|].
    destruct (fstep (k, Some c) o) as [[k' c'] r] eqn:E. destruct (Hi c eq_refl) as [v [k0 [os0 I]]].
    exact (proj1 (step_inv v k0 os0 k c o k' c' r En Hco Hg I E)).
  - destruct s as [k [c|]].
    + destruct (is_new o) eqn:En.
      * destruct o as [w| | | |]; try discriminate. cbn. intros c1 X. injection X as <-.
        exists w, k, []. now apply new_inv.
      * destruct (fstep (k, Some c) o) as [[k' c'] r] eqn:E. destruct (Hi c eq_refl) as [v [k0 [os0 I]]].
        destruct (step_inv v k0 os0 k c o k' c' r En Hco Hg I E) as [_ X]. cbn [fst snd].
        intros c1 Y. exists v, k0, (os0 ++ [o]). auto.
    + destruct o as [w| | | |]; cbn; try discriminate. intros c1 X. injection X as <-.
      exists w, k, []. now apply new_inv.
Qed.

(** The directory after any earlier history. *)
Definition before (os : list fop) : fdisk := fst (frun ([], None) os).
Lemma empty_good : good_disk [].
Proof. split; [apply NoDup_nil|]. intros v d t x H. discriminate. Qed.
Lemma before_good : forall os, Forall clean os -> good_disk (before os).
Proof. intros os H. apply history_good; auto; [apply empty_good|discriminate]. Qed.
Lemma forget : forall os v os', frun ([], None) (os ++ FNew v :: os') = frun (before os, None) (FNew v :: os').
Proof. intros. rewrite frun_app. reflexivity. Qed.

(** ** C50 *)

(** A returned path names a file with the right contents, unless an earlier prune of the same
    deck had removed it. *)
Theorem C50_ensure_partial : forall old v os d t e f, 
  Forall clean old -> Forall clean os -> session os -> clean_ending e ->
  snd (fstep (frun ([], None) (old ++ FNew v :: os)) (FEnsure d t true e)) = RPath f ->
  f = FEntry v d t /\
  (fread (fst (frun ([], None) (old ++ FNew v :: os ++ [FEnsure d t true e]))) f = Some (build v d t) \/
   lost v (before old) os f).
Proof.
  intros old v os d t e f Ho Hc Hs He H.
  rewrite forget in *. assert (G0 := before_good old Ho).
  destruct (session_inv os v (before old) Hs Hc G0) as [G I].
  assert (C2 : Forall clean (os ++ [FEnsure d t true e])) by (apply Forall_app; split; auto).
  assert (S2 : session (os ++ [FEnsure d t true e])) by (apply Forall_app; split; auto).
  destruct (session_inv (os ++ [FEnsure d t true e]) v (before old) S2 C2 G0) as [G' _].
  change (FNew v :: os ++ [FEnsure d t true e]) with ((FNew v :: os) ++ [FEnsure d t true e]) in *.
  rewrite frun_snoc in *.
  destruct (frun (before old, None) (FNew v :: os)) as [k [c|]]; [|discriminate].
  specialize (I c eq_refl). cbn [fst snd FsModel.fstep] in *. unfold ensure in *.
  rewrite (inv_version _ _ _ _ _ I) in *. set (g := FEntry v d t) in *.
  destruct (fmem g (fs_busy c)); [discriminate|].
  destruct (fmem g (fs_known c)) eqn:Ek.
  - cbn [fst snd] in *. injection H as <-. split; auto. apply fmem_in in Ek.
    destruct (inv_there _ _ _ _ _ I g Ek) as [X|X]; auto. left.
    destruct (fread k g) as [x|] eqn:E; [|congruence]. f_equal. exact (proj2 G v d t x E).
  - destruct e as [|[x|]|[x|]]; cbn [clean_ending] in He; try contradiction; cbn [fst snd] in *; try discriminate.
    injection H as <-. split; auto. left. rewrite fread_write, fname_eqb_refl. reflexivity.
Qed.
(** Likewise for get, up to the translation of line ends. *)
Theorem C50_get_partial : forall old v os d t e x,
  Forall clean old -> Forall clean os -> session os -> clean_ending e ->
  snd (fstep (frun ([], None) (old ++ FNew v :: os)) (FGet d t e)) = RData x ->
  x = build v d t \/ x = newlines (build v d t).
Proof.
  intros old v os d t e x Ho Hc Hs He H.
  rewrite forget in *. assert (G0 := before_good old Ho).
  destruct (session_inv os v (before old) Hs Hc G0) as [G I].
  destruct (frun (before old, None) (FNew v :: os)) as [k [c|]]; [|discriminate].
  specialize (I c eq_refl). cbn [fst snd FsModel.fstep] in *. unfold get in *.
  rewrite (inv_version _ _ _ _ _ I) in *. set (g := FEntry v d t) in *.
  destruct (fmem g (fs_known c)) eqn:Ek.
  - destruct (fread k g) as [y|] eqn:E; [|discriminate]. cbn [fst snd] in *. injection H as <-. right.
    f_equal. exact (proj2 G v d t y E).
  - destruct e as [|[y|]|[y|]]; cbn [clean_ending] in He; try contradiction; cbn [fst snd] in *; try discriminate.
    injection H as <-. now left.
Qed.
Lemma newlines_id : forall s, ~ In 13%N s -> newlines s = s.
Proof.
  induction s as [|c s IH]; intro H; [reflexivity|]. cbn [newlines].
  destruct (N.eqb c 13) eqn:E; [apply N.eqb_eq in E; subst; exfalso; apply H; now left|].
  f_equal. apply IH. intro X. apply H. now right.
Qed.
(** So results without carriage returns come back exactly. *)
Theorem C50_get_exact : forall old v os d t e x,
  Forall clean old -> Forall clean os -> session os -> clean_ending e -> ~ In 13%N (build v d t) ->
  snd (fstep (frun ([], None) (old ++ FNew v :: os)) (FGet d t e)) = RData x ->
  x = build v d t.
Proof.
  intros old v os d t e x Ho Hc Hs He Hr H.
  destruct (C50_get_partial old v os d t e x Ho Hc Hs He H) as [X|X]; auto.
  now rewrite newlines_id in X.
Qed.
(** With carriage returns the second call gives something else than the first. *)
Theorem C50_get_refuted : forall v d t, In 13%N (build v d t) ->
  exists x y, snd (fstep (frun ([], None) [FNew v]) (FGet d t Built)) = RData x /\
              snd (fstep (frun ([], None) [FNew v; FGet d t Built]) (FGet d t Built)) = RData y /\ x <> y.
Proof.
  intros v d t H. exists (build v d t), (newlines (build v d t)).
  split; [reflexivity|]. split.
  - unfold FsModel.frun. cbn [fold_left FsModel.fstep fst snd]. unfold get.
    cbn [fs_version fs_busy fs_known fs_new fmem existsb map fst snd fwrite dict_set].
    rewrite fname_eqb_refl. cbn [orb fst snd]. unfold fread. cbn [dict_get]. now rewrite fname_eqb_refl.
  - intro E. rewrite E in H. revert H. clear E. set (s := build v d t). clearbody s.
    assert (G : forall n s, List.length s <= n -> ~ In 13%N (newlines s)).
    { clear s. induction n as [|n IH]; intros s Hn; [destruct s; [intros []|cbn in Hn; lia]|].
      destruct s as [|c s]; [intros []|]. cbn [newlines List.length] in *.
      destruct (N.eqb c 13) eqn:E.
      - destruct s as [|d0 s]; [intros [X|[]]; discriminate|].
        destruct (N.eqb d0 10); intros [X|X]; try discriminate.
        + revert X. apply IH. cbn in Hn. lia.
        + revert X. apply IH. cbn in *. lia.
      - intros [X|X]; [subst; discriminate|]. revert X. apply IH. lia. }
    exact (G (List.length s) s (le_n _)).
Qed.
(** The exception is real: whatever is in the cache when a deck is created and not asked for
    before a prune (the first render) is afterwards returned as a path of a missing file. *)
Theorem C50_after_prune_refuted : forall k v d t e, NoDup (map fst k) -> fread k (FEntry v d t) <> None ->
  snd (fstep (frun (k, None) [FNew v; FPrune]) (FEnsure d t true e)) = RPath (FEntry v d t) /\
  fread (fst (frun (k, None) [FNew v; FPrune; FEnsure d t true e])) (FEntry v d t) = None.
Proof.
  intros k v d t e N H.
  destruct (remove_files_ok (map fst k) k N (fun f => proj2 (fread_in k f))) as [k' [R1 R2]].
  assert (U : unused (fs_new k v) = map fst k).
  { unfold unused, fs_new. cbn [fs_known fs_touched]. clear. induction (map fst k) as [|x l IH]; [reflexivity|].
    cbn [filter fmem existsb negb]. f_equal. exact IH. }
  assert (P : frun (k, None) [FNew v; FPrune] = (k', Some (fs_new k v))).
  { unfold FsModel.frun. cbn [fold_left FsModel.fstep fst snd]. unfold remove_unused. now rewrite U, R1. }
  assert (M : fmem (FEntry v d t) (map fst k) = true) by (apply fmem_in; now apply fread_in).
  change [FNew v; FPrune; FEnsure d t true e] with ([FNew v; FPrune] ++ [FEnsure d t true e]).
  rewrite frun_snoc, P. cbn [FsModel.fstep snd fst]. unfold ensure. cbn [fs_version fs_busy fs_known fs_new fmem existsb].
  change (existsb (fname_eqb (FEntry v d t)) (map fst k)) with (fmem (FEntry v d t) (map fst k)).
  rewrite M. cbn [fst snd]. split; auto. rewrite R2, M. reflexivity.
Qed.
(** A path returned without waiting may name nothing. *)
Theorem C50_no_wait_refuted : forall v d t,
  snd (fstep (frun ([], None) [FNew v; FEnsure d t true (Raised None)]) (FEnsure d t false Built)) = RPath (FEntry v d t) /\
  fread (fst (frun ([], None) [FNew v; FEnsure d t true (Raised None); FEnsure d t false Built])) (FEntry v d t) = None.
Proof.
  intros v d t. unfold FsModel.frun. cbn [fold_left FsModel.fstep fst snd]. unfold ensure.
  cbn [fs_version fs_busy fs_known fs_new fmem existsb map fst snd leave].
  rewrite fname_eqb_refl. split; reflexivity.
Qed.

(** What is hashed determines the version and the data, if the version has the shape that the
    SVG backend gives it (Elsie's version, a slash, Inkscape's version without a slash). *)
Lemma split_slash : forall a b x y, ~ In 47%N a -> ~ In 47%N b -> a ++ 47%N :: x = b ++ 47%N :: y -> a = b /\ x = y.
Proof.
  induction a as [|c a IH]; intros [|e b] x y Ha Hb H; cbn in H.
  - injection H; auto.
  - injection H as <- _. exfalso. apply Hb. now left.
  - injection H as -> _. exfalso. apply Ha. now left.
  - injection H as -> H. destruct (IH b x y) as [-> ->]; auto; intro X; [apply Ha|apply Hb]; now right.
Qed.
Theorem C50_names : forall e1 i1 e2 i2 d1 d2, 
  ~ In 47%N e1 -> ~ In 47%N i1 -> ~ In 47%N e2 -> ~ In 47%N i2 ->
  hash_input (e1 ++ [47%N] ++ i1) d1 = hash_input (e2 ++ [47%N] ++ i2) d2 -> e1 = e2 /\ i1 = i2 /\ d1 = d2.
Proof.
  intros e1 i1 e2 i2 d1 d2 H1 H2 H3 H4 H. unfold hash_input in H. apply app_inv_head in H.
  change (pys "/") with [47%N] in H. rewrite <- !app_assoc in H. cbn [app] in H.
  apply split_slash in H; [|assumption|assumption]. destruct H as [-> H]. apply split_slash in H; [|assumption|assumption]. tauto.
Qed.

(** ** C51 *)

Lemma unused_iff : forall v k0 os k c f, inv v k0 os k c -> 
  In f (unused c) <-> fread k0 f <> None /\ ~ requested v os f.
Proof.
  intros v k0 os k c f [I1 I2 I3 I4 I5 I6]. unfold unused. rewrite filter_In, negb_true_iff, fmem_notin, I3.
  split; intros [H1 H2]; split; auto. destruct (I4 f H1); tauto.
Qed.
(** The first prune of a deck succeeds and removes exactly the files that were there when the
    deck was created and were not asked for since. *)
Theorem C51_exact : forall old v os, Forall clean old -> Forall clean os -> session os -> ~ In FPrune os ->
  snd (frun ([], None) (old ++ FNew v :: os)) <> None ->
  let k := fst (frun ([], None) (old ++ FNew v :: os)) in
  let k' := fst (frun ([], None) (old ++ FNew v :: os ++ [FPrune])) in
  snd (fstep (frun ([], None) (old ++ FNew v :: os)) FPrune) = RDone /\
  forall f, (fread (before old) f <> None /\ ~ requested v os f -> fread k' f = None) /\
            (~ (fread (before old) f <> None /\ ~ requested v os f) -> fread k' f = fread k f).
Proof.
  intros old v os Ho Hc Hs Hp Hl. cbv zeta. rewrite !forget in *. assert (G0 := before_good old Ho).
  destruct (session_inv os v (before old) Hs Hc G0) as [G I].
  change (FNew v :: os ++ [FPrune]) with ((FNew v :: os) ++ [FPrune]). rewrite frun_snoc.
  destruct (frun (before old, None) (FNew v :: os)) as [k [c|]]; [|exfalso; apply Hl; reflexivity].
  specialize (I c eq_refl). cbn [fst snd] in *.
  assert (Nu : NoDup (unused c)) by (apply NoDup_filter; apply (inv_nodup _ _ _ _ _ I)).
  destruct (remove_files_ok (unused c) k Nu) as [k' [R1 R2]].
  { intros f Hf. apply filter_In in Hf. destruct (inv_there _ _ _ _ _ I f (proj1 Hf)) as [X|X]; auto.
    destruct X as [a [b [X _]]]. exfalso. apply Hp. rewrite X. apply in_or_app. right. now left. }
  cbn [FsModel.fstep snd fst]. unfold remove_unused. rewrite R1. cbn [fst snd]. split; auto.
  intro f. rewrite R2. assert (E := unused_iff v (before old) os k c f I).
  destruct (fmem f (unused c)) eqn:M.
  - apply fmem_in in M. split; auto. intro X. tauto.
  - apply fmem_notin in M. split; auto. intro X. tauto.
Qed.
(** What was asked for is never removed, by no prune. *)
Theorem C51_keeps_used : forall old v os a b f, Forall clean old -> Forall clean os -> session os ->
  os = a ++ FPrune :: b -> requested v a f ->
  fread (fst (frun ([], None) (old ++ FNew v :: a ++ [FPrune]))) f = fread (fst (frun ([], None) (old ++ FNew v :: a))) f.
Proof.
  intros old v os a b f Ho Hc Hs -> Hr. rewrite !forget in *. assert (G0 := before_good old Ho).
  apply Forall_app in Hc, Hs. destruct Hc as [Hc _], Hs as [Hs _].
  destruct (session_inv a v (before old) Hs Hc G0) as [G I].
  change (FNew v :: a ++ [FPrune]) with ((FNew v :: a) ++ [FPrune]). rewrite frun_snoc.
  destruct (frun (before old, None) (FNew v :: a)) as [k [c|]]; [|reflexivity].
  specialize (I c eq_refl). cbn [FsModel.fstep snd fst].
  destruct (remove_unused k c) as [k' r] eqn:R. cbn [fst].
  destruct G as [G1 G2]. destruct (remove_files_sub _ _ _ _ R G1) as [N S].
  destruct (S f) as [X|[X Y]]; auto. apply (unused_iff v (before old) a k c f I) in Y. tauto.
Qed.
(** Rendering twice: once a prune has removed something, every later prune of the same deck
    fails unless the removed entry was asked for in between. *)
Theorem C51_twice_refuted : forall old v a b f, Forall clean old -> Forall clean (a ++ FPrune :: b) ->
  session (a ++ FPrune :: b) -> ~ In FPrune a ->
  fread (before old) f <> None -> ~ requested v (a ++ FPrune :: b) f -> (forall n c, In (FCairo n c) b -> f <> FForeign n) ->
  snd (frun ([], None) (old ++ FNew v :: a ++ FPrune :: b)) <> None ->
  exists e, snd (fstep (frun ([], None) (old ++ FNew v :: a ++ FPrune :: b)) FPrune) = RRaised e.
Proof.
  intros old v a b f Ho Hc Hs Hp Hf Hr Hx Hl. rewrite !forget in *. assert (G0 := before_good old Ho).
  assert (Gone : forall b', (exists b'', b = b' ++ b'') ->
    fread (fst (frun (before old, None) (FNew v :: a ++ FPrune :: b'))) f = None \/
    snd (frun (before old, None) (FNew v :: a ++ FPrune :: b')) = None).
  { induction b' as [|o b' IH] using rev_ind; intros [b'' Eb].
    - apply Forall_app in Hc, Hs. destruct Hc as [Hc _], Hs as [Hs _].
      destruct (session_inv a v (before old) Hs Hc G0) as [G I].
      change (FNew v :: a ++ [FPrune]) with ((FNew v :: a) ++ [FPrune]). rewrite frun_snoc.
      destruct (frun (before old, None) (FNew v :: a)) as [k [c|]]; [|right; reflexivity].
      specialize (I c eq_refl). cbn [FsModel.fstep snd fst].
      assert (Nu : NoDup (unused c)) by (apply NoDup_filter; apply (inv_nodup _ _ _ _ _ I)).
      destruct (remove_files_ok (unused c) k Nu) as [k' [R1 R2]].
      { intros g Hg. apply filter_In in Hg. destruct (inv_there _ _ _ _ _ I g (proj1 Hg)) as [X|X]; auto.
        destruct X as [a' [b0 [X _]]]. exfalso. apply Hp. rewrite X. apply in_or_app. right. now left. }
      unfold remove_unused. rewrite R1. left. cbn [fst]. rewrite R2.
      assert (M : fmem f (unused c) = true); [|now rewrite M].
      apply fmem_in, (unused_iff v (before old) a k c f I). split; auto. intros [o [X Y]]. apply Hr.
      exists o. split; auto. apply in_or_app. now left.
    - assert (Ep : exists c'', b = b' ++ c'') by (exists (o :: b''); now rewrite Eb, <- app_assoc).
      specialize (IH Ep).
      replace (FNew v :: a ++ FPrune :: b' ++ [o]) with ((FNew v :: a ++ FPrune :: b') ++ [o])
        by (cbn; now rewrite <- app_assoc).
      rewrite frun_snoc.
      assert (Sp : session (a ++ FPrune :: b') /\ Forall clean (a ++ FPrune :: b')).
      { destruct Ep as [c'' ->]. change (FPrune :: b' ++ c'') with ((FPrune :: b') ++ c'') in *. rewrite app_assoc in Hs, Hc.
        apply Forall_app in Hs, Hc. split; [apply Hs|apply Hc]. }
      destruct Sp as [Sp Cp].
      assert (Io : In o b) by (rewrite Eb; apply in_or_app; left; apply in_or_app; right; now left).
      assert (No : is_new o = false).
      { assert (X := proj1 (Forall_forall _ _) Hs o). apply X. apply in_or_app. right. now right. }
      destruct (session_inv (a ++ FPrune :: b') v (before old) Sp Cp G0) as [G I].
      destruct (frun (before old, None) (FNew v :: a ++ FPrune :: b')) as [k [c|]].
      2:{ right. rewrite dead_step by exact No. reflexivity. }
      destruct IH as [IH|IH]; [|discriminate].
      specialize (I c eq_refl). cbn [fst] in IH, G, I.
      assert (Nq : ~ requests v o f).
      { intro X. apply Hr. exists o. split; auto. apply in_or_app. right. now right. }
      left. destruct o as [w|d t w e|d t e| |n x]; [discriminate| | | |]; cbn [FsModel.fstep snd fst]; cbn [requests] in Nq.
      + unfold ensure. rewrite (inv_version _ _ _ _ _ I).
        assert (W : forall y, fread (fwrite k (FEntry v d t) y) f = None).
        { intro y. rewrite fread_write. destruct (fname_eqb (FEntry v d t) f) eqn:E; auto.
          apply fname_eqb_eq in E. congruence. }
        destruct (fmem (FEntry v d t) (fs_busy c)); [destruct w; exact IH|].
        destruct (fmem (FEntry v d t) (fs_known c)); [exact IH|].
        destruct e as [|[y|]|[y|]]; cbn; auto; try exact (W _); exact IH.
      + unfold get. rewrite (inv_version _ _ _ _ _ I).
        assert (W : forall y, fread (fwrite k (FEntry v d t) y) f = None).
        { intro y. rewrite fread_write. destruct (fname_eqb (FEntry v d t) f) eqn:E; auto.
          apply fname_eqb_eq in E. congruence. }
        destruct (fmem (FEntry v d t) (fs_known c)); [destruct (fread k (FEntry v d t)); exact IH|].
        destruct e as [|[y|]|[y|]]; cbn; auto; try exact (W _); exact IH.
      + destruct (remove_unused k c) as [k' r] eqn:R. cbn [fst].
        destruct (remove_files_sub _ _ _ _ R (proj1 G)) as [_ S]. destruct (S f) as [X|[X _]]; congruence.
      + cbn [fst]. rewrite fread_write. destruct (fname_eqb (FForeign n) f) eqn:E; auto.
        apply fname_eqb_eq in E. exfalso. apply (Hx n x Io). auto. }
  destruct (session_inv (a ++ FPrune :: b) v (before old) Hs Hc G0) as [G I].
  destruct (Gone b (ex_intro _ [] (eq_sym (app_nil_r b)))) as [X|X]; [|congruence].
  destruct (frun (before old, None) (FNew v :: a ++ FPrune :: b)) as [k [c|]]; [|exfalso; apply Hl; reflexivity].
  specialize (I c eq_refl). cbn [fst] in *. cbn [FsModel.fstep snd fst]. unfold remove_unused.
  destruct (remove_files_fail (unused c) k f) as [k' [e R]]; auto.
  - apply (unused_iff v (before old) _ k c f I). auto.
  - exists e. now rewrite R.
Qed.

(** ** C53 *)

(** A process killed while a file is written: the next deck takes what is there for the entry. *)
Theorem C53_killed_refuted : forall v d t part e, 
  snd (fstep (frun ([], None) [FNew v; FEnsure d t true (Killed (Some part)); FNew v]) (FEnsure d t true e))
    = RPath (FEntry v d t) /\
  fread (fst (frun ([], None) [FNew v; FEnsure d t true (Killed (Some part)); FNew v; FEnsure d t true e])) (FEntry v d t)
    = Some part.
Proof.
  intros v d t part e. unfold FsModel.frun. cbn [fold_left FsModel.fstep fst snd]. unfold ensure.
  cbn [fs_version fs_busy fs_known fs_new fmem existsb map fst snd leave fwrite dict_set].
  rewrite fname_eqb_refl. cbn [orb fst snd]. split; [reflexivity|]. unfold fread. cbn [dict_get].
  now rewrite fname_eqb_refl.
Qed.
Theorem C53_get_refuted : forall v d t part e, 
  snd (fstep (frun ([], None) [FNew v; FGet d t (Killed (Some part)); FNew v]) (FGet d t e)) = RData (newlines part).
Proof.
  intros v d t part e. unfold FsModel.frun. cbn [fold_left FsModel.fstep fst snd]. unfold get.
  cbn [fs_version fs_busy fs_known fs_new fmem existsb map fst snd leave fwrite dict_set].
  rewrite fname_eqb_refl. cbn [orb fst snd]. unfold fread. cbn [dict_get]. now rewrite fname_eqb_refl.
Qed.
(** Killed at any other point, any number of times: what a new deck finds is right. *)
Theorem C53_between_partial : forall old v d t e f, Forall clean old -> clean_ending e ->
  snd (fstep (frun ([], None) (old ++ [FNew v])) (FEnsure d t true e)) = RPath f ->
  fread (fst (frun ([], None) (old ++ [FNew v; FEnsure d t true e]))) f = Some (build v d t).
Proof.
  intros old v d t e f Ho He H.
  destruct (C50_ensure_partial old v [] d t e f Ho (Forall_nil _) (Forall_nil _) He H) as [_ [X|X]]; auto.
  destruct X as [a [b [X _]]]. destruct a; discriminate.
Qed.

(** ** C77: after a failure *)

(** The failed entry is never built again: the next request for it waits for ever. *)
Theorem C77_hangs_refuted : forall old v os d t rest e, Forall clean old -> Forall clean os -> session os ->
  snd (fstep (frun ([], None) (old ++ FNew v :: os)) (FEnsure d t true (Raised rest))) = RRaised EException ->
  snd (fstep (frun ([], None) (old ++ FNew v :: os ++ [FEnsure d t true (Raised rest)])) (FEnsure d t true e)) = RHangs.
Proof.
  intros old v os d t rest e Ho Hc Hs H. rewrite forget in *.
  destruct (session_inv os v (before old) Hs Hc (before_good old Ho)) as [_ I].
  change (FNew v :: os ++ [FEnsure d t true (Raised rest)]) with ((FNew v :: os) ++ [FEnsure d t true (Raised rest)]).
  rewrite frun_snoc. destruct (frun (before old, None) (FNew v :: os)) as [k [c|]]; [|discriminate].
  specialize (I c eq_refl). cbn [FsModel.fstep fst snd] in *. unfold ensure in *.
  rewrite (inv_version _ _ _ _ _ I) in *.
  destruct (fmem (FEntry v d t) (fs_busy c)); [discriminate|].
  destruct (fmem (FEntry v d t) (fs_known c)); [discriminate|].
  cbn [fst snd fs_version fs_busy]. unfold fmem. cbn [existsb]. now rewrite fname_eqb_refl.
Qed.
(** get tries again. *)
Theorem C77_get : forall old v os d t e, Forall clean old -> Forall clean os -> session os ->
  snd (fstep (frun ([], None) (old ++ FNew v :: os)) (FGet d t (Raised None))) = RRaised EException ->
  snd (fstep (frun ([], None) (old ++ FNew v :: os ++ [FGet d t (Raised None)])) (FGet d t e)) =
    match e with Built => RData (build v d t) | Raised _ => RRaised EException | Killed _ => RDead end.
Proof.
  intros old v os d t e Ho Hc Hs H. rewrite forget in *.
  destruct (session_inv os v (before old) Hs Hc (before_good old Ho)) as [_ I].
  change (FNew v :: os ++ [FGet d t (Raised None)]) with ((FNew v :: os) ++ [FGet d t (Raised None)]).
  rewrite frun_snoc. destruct (frun (before old, None) (FNew v :: os)) as [k [c|]]; [|discriminate].
  specialize (I c eq_refl). cbn [FsModel.fstep fst snd] in *. unfold get in *.
  rewrite (inv_version _ _ _ _ _ I) in *.
  destruct (fmem (FEntry v d t) (fs_known c)) eqn:M.
  - destruct (fread k (FEntry v d t)); discriminate.
  - cbn [fst snd fs_version fs_known]. rewrite M. destruct e; reflexivity.
Qed.
End Build.
Print Assumptions C50_ensure_partial.
Print Assumptions C50_get_partial.
Print Assumptions C50_get_exact.
Print Assumptions C50_get_refuted.
Print Assumptions C50_after_prune_refuted.
Print Assumptions C50_no_wait_refuted.
Print Assumptions C50_names.
Print Assumptions C51_exact.
Print Assumptions C51_keeps_used.
Print Assumptions C51_twice_refuted.
Print Assumptions C53_killed_refuted.
Print Assumptions C53_get_refuted.
Print Assumptions C53_between_partial.
Print Assumptions C77_hangs_refuted.
Print Assumptions C77_get.

(** Histories that meet the hypotheses. *)
Definition ex_build (v d t : str) : str := v ++ d ++ t.
Definition ex_old : list fop := [FNew (pys "1"); FEnsure (pys "a") (pys "pdf") true Built; FEnsure (pys "b") (pys "pdf") true Built;
  FGet (pys "x") (pys "svg") (Killed None)].
Definition ex_os : list fop := [FEnsure (pys "a") (pys "pdf") true Built; FEnsure (pys "c") (pys "pdf") true (Raised None)].
Example ex_C50 : Forall clean ex_old /\ Forall clean ex_os /\ session ex_os /\
  snd (fstep ex_build (frun ex_build ([], None) (ex_old ++ FNew (pys "1") :: ex_os)) (FEnsure (pys "b") (pys "pdf") true Built))
    = RPath (FEntry (pys "1") (pys "b") (pys "pdf")).
Proof. repeat split; repeat constructor. Qed.
Example ex_C51 : ~ In FPrune ex_os /\ snd (frun ex_build ([], None) (ex_old ++ FNew (pys "1") :: ex_os)) <> None /\
  fread (before ex_build ex_old) (FEntry (pys "1") (pys "b") (pys "pdf")) <> None /\
  ~ requested (pys "1") (ex_os ++ [FPrune]) (FEntry (pys "1") (pys "b") (pys "pdf")) /\
  snd (fstep ex_build (frun ex_build ([], None) (ex_old ++ FNew (pys "1") :: ex_os ++ [FPrune])) FPrune) = RRaised EFileNotFound.
Proof.
  split; [intros [X|[X|[]]]; discriminate|]. split; [discriminate|]. split; [discriminate|]. split.
  - intros [o [[<-|[<-|[<-|[]]]] X]]; cbn in X; try contradiction; discriminate.
  - vm_compute. reflexivity.
Qed.
Example ex_C77 : snd (fstep ex_build (frun ex_build ([], None) (ex_old ++ FNew (pys "1") :: ex_os)) (FEnsure (pys "c") (pys "pdf") true Built)) = RHangs.
Proof. vm_compute. reflexivity. Qed.
