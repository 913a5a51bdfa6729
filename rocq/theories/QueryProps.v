(** Properties of the query cache: C48, C49, C76. *)
From Coq Require Import List ZArith QArith NArith Bool String Lia.
From Verif Require Import Py PyFacts XmlModel QueryModel.
Import ListNotations.

Lemma qkey_eqb_eq : forall a b, qkey_eqb a b = true <-> a = b.
Proof.
  intros [a1 a2] [b1 b2]. unfold qkey_eqb. cbn [fst snd]. rewrite andb_true_iff, !str_eqb_eq.
  split; [intros [-> ->]; reflexivity|intros H; injection H; auto].
Qed.
Lemma qget_set : forall d k v k', qget (qset d k v) k' = if qkey_eqb k k' then Some v else qget d k'.
Proof.
  unfold qget, qset. induction d as [|[a x] d IH]; intros k v k'; cbn [dict_set dict_get].
  - reflexivity.
  - destruct (qkey_eqb a k) eqn:E; cbn [dict_get].
    + apply qkey_eqb_eq in E. subst a. destruct (qkey_eqb k k'); reflexivity.
    + destruct (qkey_eqb a k') eqn:E'; [|apply IH].
      destruct (qkey_eqb k k') eqn:E2; [|reflexivity].
      apply qkey_eqb_eq in E', E2. subst. assert (X := proj2 (qkey_eqb_eq k' k') eq_refl). congruence.
Qed.
Lemma qget_set_same : forall d k v, qget (qset d k v) k = Some v.
Proof. intros. rewrite qget_set. now rewrite (proj2 (qkey_eqb_eq k k) eq_refl). Qed.

Definition qdistinct (d : qdict) : Prop := NoDup (map fst d).
Lemma qset_keys : forall d k v, map fst (qset d k v) =
  if existsb (fun a => qkey_eqb a k) (map fst d) then map fst d else map fst d ++ [k].
Proof.
  unfold qset. induction d as [|[a x] d IH]; intros k v; cbn [dict_set map fst existsb]; [reflexivity|].
  destruct (qkey_eqb a k) eqn:E; cbn [orb map fst]; [reflexivity|].
  rewrite IH. destruct (existsb (fun a0 => qkey_eqb a0 k) (map fst d)); reflexivity.
Qed.
Lemma qset_distinct : forall d k v, qdistinct d -> qdistinct (qset d k v).
Proof.
  intros d k v H. unfold qdistinct. rewrite qset_keys.
  destruct (existsb (fun a => qkey_eqb a k) (map fst d)) eqn:E; [exact H|].
  assert (N : ~ In k (map fst d)).
  { intro X. assert (Y : existsb (fun a => qkey_eqb a k) (map fst d) = true); [|congruence].
    apply existsb_exists. exists k. split; auto. now apply qkey_eqb_eq. }
  clear E. unfold qdistinct in H. induction (map fst d) as [|y l IH]; cbn.
  - apply NoDup_cons; [intros []|apply NoDup_nil].
  - apply NoDup_cons_iff in H. destruct H as [H1 H2]. apply NoDup_cons.
    + rewrite in_app_iff. intros [X|[X|[]]]; [auto|]. subst. apply N. now left.
    + apply IH; auto. intro X. apply N. now right.
Qed.
(** Loading gives back the saved dict. *)
Lemma load_dict : forall d, qdistinct d -> forall d0,
  (forall k, In k (map fst d) -> ~ In k (map fst d0)) ->
  fold_left (fun d kv => qset d (fst kv) (snd kv)) d d0 = d0 ++ d.
Proof.
  induction d as [|[k v] d IH]; intros H d0 Hd; cbn [fold_left]; [now rewrite app_nil_r|].
  cbn [fst snd]. unfold qdistinct in H. cbn [map fst] in H. apply NoDup_cons_iff in H. destruct H as [H1 H2].
  assert (E : qset d0 k v = d0 ++ [(k, v)]).
  { assert (N : ~ In k (map fst d0)) by (apply Hd; now left). clear - N. unfold qset.
    induction d0 as [|[a x] d0 IH]; cbn [dict_set app]; [reflexivity|].
    destruct (qkey_eqb a k) eqn:E; [apply qkey_eqb_eq in E; subst; exfalso; apply N; now left|].
    f_equal. apply IH. intro X. apply N. now right. }
  rewrite E, IH; auto.
  - now rewrite <- app_assoc.
  - intros k' Hk. rewrite map_app, in_app_iff. intros [X|[X|[]]].
    + revert X. apply Hd. now right.
    + subst. contradiction.
Qed.

Section Ask.
Variable ask : str -> str -> str -> result Q.
Notation compute_query := (compute_query ask).
Notation qrun := (qrun ask).
Notation qstep := (qstep ask).
Notation process_query := (process_query ask).

(** All stored values are answers of Inkscape [w]. *)
Definition right_answers (w : str) (d : qdict) : Prop :=
  forall m x v, qget d (m, x) = Some v -> compute_query w m x = Ok v.
Definition backend_ok (b : qbackend) : Prop :=
  right_answers (qb_inkscape b) (qb_cache b) /\ right_answers (qb_inkscape b) (qb_used b) /\
  qdistinct (qb_cache b) /\ qdistinct (qb_used b).
Definition disk_ok (k : qdisk) : Prop :=
  match k with
  | QFile f => right_answers (qf_inkscape f) (qf_queries f) /\ qdistinct (qf_queries f)
  | _ => True
  end.
Definition state_ok (s : qstate) : Prop :=
  disk_ok (qs_disk s) /\ forall b, qs_backend s = Some b -> backend_ok b.

Lemma right_set : forall w d m x v, right_answers w d -> compute_query w m x = Ok v ->
  right_answers w (qset d (m, x) v).
Proof.
  intros w d m x v H E m' x' v' G. rewrite qget_set in G. destruct (qkey_eqb (m, x) (m', x')) eqn:Ek.
  - apply qkey_eqb_eq in Ek. injection Ek as -> ->. injection G as ->. exact E.
  - now apply H.
Qed.
Lemma process_ok : forall b m d, backend_ok b -> backend_ok (fst (fst (process_query b m d))).
Proof.
  intros b m d [H1 [H2 [H3 H4]]]. unfold QueryModel.process_query.
  destruct (qget (qb_cache b) (m, d)) as [v|] eqn:E.
  - cbn [fst]. split; [exact H1|]. split; [|split; [exact H3|now apply qset_distinct]].
    cbn [qb_used qb_inkscape]. apply right_set; auto.
  - destruct (QueryModel.compute_query ask (qb_inkscape b) m d) as [v|e] eqn:C; cbn [fst].
    + split; [|split; [|split]]; cbn [qb_used qb_inkscape qb_cache]; try (now apply qset_distinct); now apply right_set.
    + repeat split; auto.
Qed.
Lemma nil_ok : forall w, right_answers w [] /\ qdistinct [].
Proof. intro w. split; [intros m x v H; discriminate|apply NoDup_nil]. Qed.
Lemma load_ok : forall k v w d, disk_ok k -> load_queries k v w = Ok d -> right_answers w d /\ qdistinct d.
Proof.
  intros k v w d Hk H. unfold load_queries in H. destruct k as [|f|]; [injection H as <-; apply nil_ok| |discriminate].
  destruct (str_eqb (qf_version f) v); cbn [negb] in H; [|injection H as <-; apply nil_ok].
  destruct (str_eqb (qf_inkscape f) w) eqn:E; cbn [negb] in H; [|injection H as <-; apply nil_ok].
  apply str_eqb_eq in E. subst w. destruct Hk as [H1 H2].
  rewrite load_dict in H; auto. injection H as <-. auto.
Qed.
Lemma qstep_ok : forall s o, state_ok s -> state_ok (qstep s o).
Proof.
  intros s o [Hd Hb]. unfold QueryModel.qstep. destruct o as [m d| | |v w|].
  - destruct (qs_backend s) as [b|] eqn:E; [|split; congruence || (rewrite E; auto)].
    split; [exact Hd|]. cbn [qs_backend]. intros b' X. injection X as <-. now apply process_ok, Hb.
  - destruct (qs_backend s) as [b|] eqn:E; [|split; congruence || (rewrite E; auto)].
    split; [exact Hd|]. cbn [qs_backend]. intros b' X. injection X as <-. destruct (Hb b eq_refl) as [H1 [H2 [H3 H4]]].
    split; [exact H2|]. split; [apply nil_ok; exact []|]. split; [exact H4|apply NoDup_nil].
  - destruct (qs_backend s) as [b|] eqn:E; [|split; congruence || (rewrite E; auto)].
    destruct (Hb b eq_refl) as [H1 [H2 [H3 H4]]].
    split; [split; [exact H1|exact H3]|]. cbn [qs_backend]. intros b' X. injection X as <-. now apply Hb.
  - split; [exact Hd|]. cbn [qs_backend]. destruct (load_queries (qs_disk s) v w) as [d|e] eqn:L; [|discriminate].
    intros b X. injection X as <-. destruct (load_ok _ _ _ _ Hd L). destruct (nil_ok w). split; auto.
  - destruct (qs_backend s) as [b|] eqn:E; [|split; congruence || (rewrite E; auto)].
    split; [exact I|discriminate].
Qed.
Lemma qrun_ok : forall os s, state_ok s -> state_ok (qrun s os).
Proof. induction os as [|o os IH]; intros s H; [exact H|]. apply IH. now apply qstep_ok. Qed.

(** ** C48 *)
Definition blank : qstate := mkQS QAbsent None.
Lemma blank_ok : state_ok blank.
Proof. split; [exact I|discriminate]. Qed.

(** Whatever happened before, a query is answered as Inkscape would. *)
Theorem C48_transparent : forall os b m d, qs_backend (qrun blank os) = Some b ->
  snd (fst (process_query b m d)) = compute_query (qb_inkscape b) m d.
Proof.
  intros os b m d H. destruct (qrun_ok os blank blank_ok) as [_ Hb]. destruct (Hb b H) as [H1 _].
  unfold QueryModel.process_query. destruct (qget (qb_cache b) (m, d)) as [v|] eqn:E; cbn [fst snd].
  - symmetry. now apply H1.
  - destruct (QueryModel.compute_query ask (qb_inkscape b) m d); reflexivity.
Qed.

(** Entries of other versions are not used. *)
Theorem C48_versions : forall os v w b k x, 
  qs_backend (qrun blank (os ++ [QStart v w])) = Some b -> qget (qb_cache b) k = Some x ->
  exists f, qs_disk (qrun blank os) = QFile f /\ qf_version f = v /\ qf_inkscape f = w /\
            qget (qf_queries f) k = Some x.
Proof.
  intros os v w b k x H G. unfold QueryModel.qrun in H. rewrite fold_left_app in H. cbn [fold_left] in H.
  fold (qrun blank os) in H. cbn [QueryModel.qstep qs_backend] in H.
  destruct (qrun_ok os blank blank_ok) as [Hd _].
  destruct (load_queries (qs_disk (qrun blank os)) v w) as [d|] eqn:L; [|discriminate].
  injection H as <-. cbn [qb_cache] in G. unfold load_queries in L.
  destruct (qs_disk (qrun blank os)) as [|f|]; [injection L as <-; discriminate| |discriminate].
  destruct (str_eqb (qf_version f) v) eqn:E1; cbn [negb] in L; [|injection L as <-; discriminate].
  destruct (str_eqb (qf_inkscape f) w) eqn:E2; cbn [negb] in L; [|injection L as <-; discriminate].
  apply str_eqb_eq in E1, E2. exists f. destruct Hd as [_ Hd]. rewrite load_dict in L; auto.
  injection L as <-. auto.
Qed.

(** Queries with an unknown method are rejected. *)
Theorem C48_methods : forall b m d v b' a, process_query b m d = (b', Ok v, a) ->
  state_ok (mkQS QAbsent (Some b)) ->
  In m [pys "inkscape-w"; pys "inkscape-h"; pys "inkscape-x"].
Proof.
  intros b m d v b' a H Hs. destruct Hs as [_ Hb]. destruct (Hb b eq_refl) as [H1 _].
  assert (C : compute_query (qb_inkscape b) m d = Ok v).
  { unfold QueryModel.process_query in H. destruct (qget (qb_cache b) (m, d)) as [x|] eqn:E.
    - assert (X : x = v) by congruence. subst. now apply H1.
    - destruct (QueryModel.compute_query ask (qb_inkscape b) m d); congruence. }
  unfold QueryModel.compute_query in C. destruct (query_doc d); [|discriminate]. cbn [rbind] in C.
  destruct (str_eqb m (pys "inkscape-w")) eqn:E1; [apply str_eqb_eq in E1; left; auto|].
  destruct (str_eqb m (pys "inkscape-h")) eqn:E2; [apply str_eqb_eq in E2; right; left; auto|].
  destruct (str_eqb m (pys "inkscape-x")) eqn:E3; [apply str_eqb_eq in E3; right; right; left; auto|discriminate].
Qed.

(** What is measured: width, height or left edge, of the data inside a plain SVG document. *)
Theorem C48_measures : forall w d, exists doc,
  doc = pys "<svg xmlns='http://www.w3.org/2000/svg' xmlns:xlink='http://www.w3.org/1999/xlink'>" ++ d ++ pys "</svg>" /\
  compute_query w (pys "inkscape-w") d = ask w (pys "query-width") doc /\
  compute_query w (pys "inkscape-h") d = ask w (pys "query-height") doc /\
  compute_query w (pys "inkscape-x") d = ask w (pys "query-x") doc.
Proof.
  intros w d. eexists. split; [reflexivity|].
  assert (E : query_doc d = Ok (pys "<svg xmlns='http://www.w3.org/2000/svg' xmlns:xlink='http://www.w3.org/1999/xlink'>" ++ d ++ pys "</svg>")).
  { vm_compute. reflexivity. }
  unfold QueryModel.compute_query. rewrite E. cbn [rbind]. split; [reflexivity|]. split; reflexivity.
Qed.

(** ** C49 *)

Definition queries (ks : list qkey) : list qop := map (fun k => QQuery (fst k) (snd k)) ks.

Lemma run_queries : forall ks s b, qs_backend s = Some b -> backend_ok b ->
  exists b', qrun s (queries ks) = mkQS (qs_disk s) (Some b') /\ backend_ok b' /\
    qb_version b' = qb_version b /\ qb_inkscape b' = qb_inkscape b /\
    (forall k v, qget (qb_cache b) k = Some v -> qget (qb_cache b') k = Some v) /\
    (forall k v, qget (qb_used b) k = Some v -> qget (qb_used b') k = Some v) /\
    (forall k v, In k ks -> compute_query (qb_inkscape b) (fst k) (snd k) = Ok v ->
       qget (qb_used b') k = Some v /\ qget (qb_cache b') k = Some v) /\
    (forall k v, qget (qb_used b') k = Some v -> qget (qb_used b) k = Some v \/ In k ks).
Proof.
  induction ks as [|k ks IH]; intros s b Hs Hb.
  - exists b. split; [cbn; destruct s; cbn in *; now subst|]. repeat split; auto; try apply Hb; contradiction.
  - cbn [queries map]. unfold QueryModel.qrun. cbn [fold_left QueryModel.qstep]. rewrite Hs.
    set (b1 := fst (fst (process_query b (fst k) (snd k)))).
    assert (B1 : backend_ok b1) by (now apply process_ok).
    destruct (IH (mkQS (qs_disk s) (Some b1)) b1 eq_refl B1) as [b2 [E [B2 [V [W [C [U [N M]]]]]]]].
    fold (qrun (mkQS (qs_disk s) (Some b1)) (queries ks)).
    assert (P : qb_version b1 = qb_version b /\ qb_inkscape b1 = qb_inkscape b /\
      (forall k v, qget (qb_cache b) k = Some v -> qget (qb_cache b1) k = Some v) /\
      (forall k v, qget (qb_used b) k = Some v -> qget (qb_used b1) k = Some v) /\
      (forall v, compute_query (qb_inkscape b) (fst k) (snd k) = Ok v ->
         qget (qb_used b1) k = Some v /\ qget (qb_cache b1) k = Some v) /\
      (forall k' v, qget (qb_used b1) k' = Some v -> qget (qb_used b) k' = Some v \/ k = k')).
    { destruct Hb as [H1 [H2 _]]. unfold b1, QueryModel.process_query. destruct k as [m d]. cbn [fst snd].
      destruct (qget (qb_cache b) (m, d)) as [x|] eqn:Ex; cbn [fst].
      - assert (Cx := H1 m d x Ex). split; [reflexivity|]. split; [reflexivity|]. cbn [qb_cache qb_used]. split; [auto|]. split; [|split].
        + intros k v G. rewrite qget_set. destruct (qkey_eqb (m, d) k) eqn:Ek; auto.
          apply qkey_eqb_eq in Ek. subst k. assert (Y := H2 m d v G). congruence.
        + intros v Cv. rewrite qget_set_same. split; congruence.
        + intros k' v G. rewrite qget_set in G. destruct (qkey_eqb (m, d) k') eqn:Ek; auto.
          apply qkey_eqb_eq in Ek. auto.
      - destruct (QueryModel.compute_query ask (qb_inkscape b) m d) as [x|e] eqn:Cx; cbn [fst].
        + split; [reflexivity|]. split; [reflexivity|]. cbn [qb_cache qb_used]. split; [|split; [|split]].
          * intros k v G. rewrite qget_set. destruct (qkey_eqb (m, d) k) eqn:Ek; auto.
            apply qkey_eqb_eq in Ek. congruence.
          * intros k v G. rewrite qget_set. destruct (qkey_eqb (m, d) k) eqn:Ek; auto.
            apply qkey_eqb_eq in Ek. subst k. assert (Y := H2 m d v G). congruence.
          * intros v Cv. rewrite !qget_set_same. split; congruence.
          * intros k' v G. rewrite qget_set in G. destruct (qkey_eqb (m, d) k') eqn:Ek; auto.
            apply qkey_eqb_eq in Ek. auto.
        + repeat split; auto; discriminate. }
    destruct P as [P1 [P2 [P3 [P4 [P5 P6]]]]].
    exists b2. split; [exact E|]. split; [exact B2|]. split; [congruence|]. split; [congruence|].
    split; [auto|]. split; [auto|]. split.
    + intros k' v [<-|Hin] Cv.
      * destruct (P5 v Cv). auto.
      * apply N; auto. now rewrite P2.
    + intros k' v G. destruct (M k' v G) as [G'|G']; [|right; now right].
      destruct (P6 k' v G') as [G2|G2]; [now left|right; left; exact G2].
Qed.

(** A run that measures, and renders once: exactly the measurements of this run are kept, and
    in the next run of the same versions none of them is asked for again. *)
Theorem C49_kept_partial : forall os v w ks, is_ok (load_queries (qs_disk (qrun blank os)) v w) = true ->
  exists f, qs_disk (qrun blank (os ++ QStart v w :: queries ks ++ qrender)) = QFile f /\
  (forall k x, qget (qf_queries f) k = Some x <-> In k ks /\ compute_query w (fst k) (snd k) = Ok x) /\
  exists b, qs_backend (qrun blank (os ++ QStart v w :: queries ks ++ qrender ++ [QStart v w])) = Some b /\
    forall k x, In k ks -> compute_query w (fst k) (snd k) = Ok x ->
      snd (process_query b (fst k) (snd k)) = false.
Proof.
  intros os v w ks H.
  destruct (qrun_ok os blank blank_ok) as [Hd _].
  set (s0 := qrun blank os) in *.
  destruct (load_queries (qs_disk s0) v w) as [d|] eqn:L; [|discriminate]. clear H.
  destruct (load_ok _ _ _ _ Hd L) as [D1 D2].
  set (b0 := mkQB v w d []).
  assert (B0 : backend_ok b0). { destruct (nil_ok w). split; auto. }
  set (s1 := mkQS (qs_disk s0) (Some b0)).
  destruct (run_queries ks s1 b0 eq_refl B0) as [b1 [E [B1 [V [W [C [U [N M]]]]]]]].
  assert (S1 : forall rest, qrun blank (os ++ QStart v w :: rest) = qrun s1 rest).
  { intros rest. unfold QueryModel.qrun. rewrite fold_left_app. cbn [fold_left QueryModel.qstep].
    fold s0 in L. change (fold_left (QueryModel.qstep ask) os blank) with s0. rewrite L. reflexivity. }
  assert (S2 : forall rest, qrun s1 (queries ks ++ rest) = qrun (mkQS (qs_disk s1) (Some b1)) rest).
  { intros rest. unfold QueryModel.qrun. rewrite fold_left_app. fold (qrun s1 (queries ks)). now rewrite E. }
  rewrite !S1, !S2. unfold qrender. cbn [app].
  unfold QueryModel.qrun. cbn [fold_left QueryModel.qstep qs_backend qs_disk].
  unfold save_queries, prune_queries. cbn [qb_version qb_inkscape qb_cache].
  destruct B1 as [B11 [B12 [B13 B14]]].
  assert (Vv : qb_version b1 = v) by (now rewrite V). assert (Ww : qb_inkscape b1 = w) by (now rewrite W).
  assert (G : forall k x, qget (qb_used b1) k = Some x <-> In k ks /\ compute_query w (fst k) (snd k) = Ok x).
  { intros k x. split.
    - intros Gx. destruct (M k x Gx) as [X|X]; [discriminate|]. split; auto.
      destruct k as [m y]. rewrite <- Ww. now apply B12.
    - intros [X1 X2]. apply N; auto. }
  eexists. split; [reflexivity|]. cbn [qf_queries]. split; [exact G|].
  rewrite Vv, Ww. cbn [load_queries qf_version qf_inkscape qf_queries]. rewrite !str_eqb_refl. cbn [negb].
  rewrite load_dict; auto. cbn [app]. eexists. split; [reflexivity|].
  intros k x Hk Hx. unfold QueryModel.process_query. cbn [qb_cache].
  destruct k as [m y]. cbn [fst snd] in *. now rewrite (proj2 (G (m, y) x) (conj Hk Hx)).
Qed.

(** Rendering twice, as in a notebook, forgets everything that is not measured again in
    between. *)
Theorem C49_render_twice_refuted : forall os b ks, qs_backend (qrun blank os) = Some b ->
  exists f, qs_disk (qrun blank (os ++ queries ks ++ qrender ++ qrender)) = QFile f /\ qf_queries f = [].
Proof.
  intros os b ks H. destruct (qrun_ok os blank blank_ok) as [_ Hb].
  destruct (run_queries ks (qrun blank os) b H (Hb b H)) as [b1 [E _]].
  unfold QueryModel.qrun. rewrite fold_left_app, fold_left_app.
  change (fold_left (QueryModel.qstep ask) os blank) with (qrun blank os).
  change (fold_left (QueryModel.qstep ask) (queries ks) (qrun blank os)) with (qrun (qrun blank os) (queries ks)).
  rewrite E. eexists. split; reflexivity.
Qed.

(** Without pruning nothing is forgotten. *)
Theorem C49_save_only : forall os b k x, qs_backend (qrun blank os) = Some b ->
  qget (qb_cache b) k = Some x ->
  exists f, qs_disk (qrun blank (os ++ [QSave])) = QFile f /\ qget (qf_queries f) k = Some x.
Proof.
  intros os b k x H G. unfold QueryModel.qrun. rewrite fold_left_app.
  change (fold_left (QueryModel.qstep ask) os blank) with (qrun blank os).
  cbn [fold_left QueryModel.qstep]. rewrite H. eexists. split; [reflexivity|exact G].
Qed.

(** ** C76: starting after a crash *)

(** A process that was killed while saving cannot be followed by another one. *)
Theorem C76_killed_refuted : forall os b v w, qs_backend (qrun blank os) = Some b ->
  qs_backend (qrun blank (os ++ [QKilled; QStart v w])) = None.
Proof.
  intros os b v w H. unfold QueryModel.qrun. rewrite fold_left_app.
  change (fold_left (QueryModel.qstep ask) os blank) with (qrun blank os).
  cbn [fold_left QueryModel.qstep]. rewrite H. reflexivity.
Qed.
(** If no process was ever killed while saving, every start succeeds. *)
Theorem C76_start_partial : forall os v w, ~ In QKilled os ->
  exists b, qs_backend (qrun blank (os ++ [QStart v w])) = Some b /\ qb_version b = v /\ qb_inkscape b = w.
Proof.
  intros os v w H.
  assert (G : qs_disk (qrun blank os) <> QBroken).
  { induction os as [|o os IH] using rev_ind; [discriminate|].
    assert (I := IH (fun X => H (in_or_app _ _ _ (or_introl X)))).
    assert (No : o <> QKilled) by (intros ->; apply H; apply in_or_app; right; now left).
    unfold QueryModel.qrun in *. rewrite fold_left_app. cbn [fold_left].
    clear IH H. cbn beta in I. destruct (fold_left (QueryModel.qstep ask) os blank) as [dk [b|]]; cbn [qs_disk] in I;
    destruct o; cbn [QueryModel.qstep qs_backend qs_disk]; unfold save_queries; congruence. }
  unfold QueryModel.qrun. rewrite fold_left_app.
  change (fold_left (QueryModel.qstep ask) os blank) with (qrun blank os).
  cbn [fold_left QueryModel.qstep qs_backend]. unfold load_queries.
  destruct (qs_disk (qrun blank os)) as [|f|]; [eauto| |congruence].
  destruct (str_eqb (qf_version f) v); cbn [negb]; [|eauto].
  destruct (str_eqb (qf_inkscape f) w); cbn [negb]; eauto.
Qed.
End Ask.
Print Assumptions C48_transparent.
Print Assumptions C48_versions.
Print Assumptions C48_methods.
Print Assumptions C48_measures.
Print Assumptions C49_kept_partial.
Print Assumptions C49_render_twice_refuted.
Print Assumptions C49_save_only.
Print Assumptions C76_killed_refuted.
Print Assumptions C76_start_partial.

(** A history: two runs, then one with another Inkscape. *)
Definition ex_ask (w q doc : str) : result Q := Ok (inject_Z (Z.of_nat (List.length w + List.length doc))).
Definition ex_history : list qop :=
  QStart (pys "3") (pys "1.0") :: queries [(pys "inkscape-w", pys "<a/>"); (pys "inkscape-h", pys "<a/>")] ++ qrender.
Example ex_C48 : exists b, qs_backend (qrun ex_ask blank (ex_history ++ [QStart (pys "3") (pys "1.0")])) = Some b /\
  snd (process_query ex_ask b (pys "inkscape-w") (pys "<a/>")) = false /\
  snd (process_query ex_ask b (pys "inkscape-x") (pys "<a/>")) = true.
Proof. eexists. split; [vm_compute; reflexivity|]. split; vm_compute; reflexivity. Qed.
Example ex_C48_version : exists b, qs_backend (qrun ex_ask blank (ex_history ++ [QStart (pys "3") (pys "1.1")])) = Some b /\
  snd (process_query ex_ask b (pys "inkscape-w") (pys "<a/>")) = true.
Proof. eexists. split; [vm_compute; reflexivity|]. vm_compute; reflexivity. Qed.
