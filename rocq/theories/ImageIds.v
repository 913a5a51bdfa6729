(** Proofs about renamed ids. *)
From Coq Require Import List ZArith NArith Bool String Lia.
From Verif Require Import Py PyFacts ImageModel ImageSpec ImageProofs.
Import ListNotations.

Lemma str_eqb_eq : forall a b, str_eqb a b = true <-> a = b.
Proof.
  induction a as [|x a IH]; intros [|y b]; cbn; split; intros H; try discriminate; auto.
  - apply andb_true_iff in H. destruct H as [E H]. apply N.eqb_eq in E. apply IH in H.
    congruence.
  - injection H as -> ->. rewrite N.eqb_refl. now apply IH.
Qed.
Lemma str_eqb_refl' : forall a, str_eqb a a = true.
Proof. intros. now apply str_eqb_eq. Qed.
Lemma str_eqb_neq : forall a b, str_eqb a b = false <-> a <> b.
Proof.
  intros. rewrite <- str_eqb_eq. destruct (str_eqb a b); split; congruence.
Qed.

(** ** Occurrences of a reference *)

Lemma startswith_spec : forall p s, startswith p s = true <-> exists r, s = p ++ r.
Proof.
  unfold startswith. induction p as [|c p IH]; intros s; cbn.
  - split; [exists s; reflexivity|reflexivity].
  - destruct s as [|d s]; [split; [discriminate|intros [r H]; discriminate]|].
    destruct (N.eqb c d) eqn:E.
    + apply N.eqb_eq in E; subst. rewrite IH. split; intros [r H]; exists r; congruence.
    + split; [discriminate|]. intros [r H]. injection H as -> _.
      rewrite N.eqb_refl in E. discriminate.
Qed.

(** A text that is empty or starts with '#'. *)
Definition at_hash (s : str) : Prop := s = [] \/ exists s', s = hash :: s'.

Lemma startswith_upto : forall j w r, ~ In hash j -> at_hash r ->
  startswith j (w ++ r) = startswith j w.
Proof.
  intros j w r Hj Hr. apply eq_true_iff_eq. rewrite !startswith_spec. split.
  - revert w. induction j as [|c j IH]; intros w [q E]; [exists w; reflexivity|].
    destruct w as [|d w].
    + rewrite app_nil_l in E. destruct Hr as [Hr|[s' Hr]]; rewrite Hr in E; [discriminate E|].
      injection E as <- _. exfalso. apply Hj. now left.
    + cbn in E. injection E as -> E.
      destruct (IH ltac:(intros X; apply Hj; now right) w) as [q' ->]; [eauto|].
      exists q'. reflexivity.
  - intros [q ->]. exists (q ++ r). now rewrite app_assoc.
Qed.

Lemma hash_app : forall s, pys "#" ++ s = hash :: s.
Proof. reflexivity. Qed.

Definition refs_tail (ws : list str) : str :=
  match ws with [] => [] | w :: ws' => pys "#" ++ join_refs w ws' end.
Lemma join_refs_eq : forall a ws, join_refs a ws = a ++ refs_tail ws.
Proof. intros a [|w ws]; cbn [join_refs refs_tail]; [now rewrite app_nil_r|reflexivity]. Qed.
Lemma refs_tail_hash : forall ws, at_hash (refs_tail ws).
Proof. intros [|w ws]; [now left|right]. cbn. eauto. Qed.

Lemma startswith_other : forall d p c s, c <> d -> startswith (d :: p) (c :: s) = false.
Proof.
  intros d p c s H. apply not_true_is_false. intros X. apply startswith_spec in X.
  destruct X as [r X]. injection X as X _. now apply H.
Qed.

Lemma contains_skip : forall j a r, ~ In hash a ->
  contains (hash :: j) (a ++ r) = contains (hash :: j) r.
Proof.
  intros j a r. induction a as [|c a IH]; intros H; auto.
  cbn [app contains]. rewrite IH by (intros X; apply H; now right).
  rewrite startswith_other; auto. intros ->. apply H. now left.
Qed.

Lemma startswith_cons : forall c p s, startswith (c :: p) (c :: s) = startswith p s.
Proof. intros. unfold startswith. cbn. now rewrite N.eqb_refl. Qed.

Lemma contains_refs : forall j ws a, ~ In hash j -> ~ In hash a ->
  Forall (fun w => ~ In hash w) ws ->
  contains (hash :: j) (join_refs a ws) = existsb (startswith j) ws.
Proof.
  intros j ws. induction ws as [|w ws IH]; intros a Hj Ha Hw.
  - cbn [join_refs existsb]. rewrite <- (app_nil_r a), contains_skip by auto. reflexivity.
  - inversion Hw as [|? ? Hw1 Hw2]; subst. cbn [join_refs existsb].
    rewrite contains_skip by auto. rewrite hash_app.
    cbn [contains]. rewrite IH by auto. f_equal.
    rewrite startswith_cons, join_refs_eq. apply startswith_upto; auto using refs_tail_hash.
Qed.

Lemma replace_skip : forall old new x y,
  replace_at old new (List.length x) (x ++ y) = replace_at old new 0 y.
Proof.
  induction x as [|c x IH]; intros y; [reflexivity|].
  cbn [List.length app replace_at]. apply IH.
Qed.

Lemma replace_nohash : forall j new a r, ~ In hash a ->
  replace_at (hash :: j) new 0 (a ++ r) = a ++ replace_at (hash :: j) new 0 r.
Proof.
  intros j new a r. induction a as [|c a IH]; intros H; auto.
  cbn [app replace_at]. rewrite startswith_other by (intros ->; apply H; now left).
  now rewrite IH by (intros X; apply H; now right).
Qed.

(** Replacement of one reference in a list of references that all start with it. *)
Lemma replace_refs : forall j s ps a, ~ In hash j -> ~ In hash a ->
  Forall (fun p => ~ In hash p) ps ->
  replace_all (hash :: j) ((hash :: j) ++ s) (join_refs a (map (fun p => j ++ p) ps)) =
  join_refs a (map (fun p => (j ++ s) ++ p) ps).
Proof.
  intros j s ps. unfold replace_all.
  assert (G : forall a, ~ In hash j -> ~ In hash a -> Forall (fun p => ~ In hash p) ps ->
    replace_at (hash :: j) ((hash :: j) ++ s) 0 (join_refs a (map (fun p => j ++ p) ps)) =
    join_refs a (map (fun p => (j ++ s) ++ p) ps)).
  { induction ps as [|p ps IH]; intros a Hj Ha Hp.
    - cbn [map join_refs]. rewrite <- (app_nil_r a) at 1. rewrite replace_nohash by auto.
      cbn. now rewrite app_nil_r.
    - inversion Hp as [|? ? Hp1 Hp2]; subst. cbn [map join_refs].
      rewrite replace_nohash by auto. f_equal.
      rewrite !hash_app.
      cbn [replace_at].
      replace (startswith (hash :: j) (hash :: join_refs (j ++ p) (map (fun p0 => j ++ p0) ps)))
        with true.
      2:{ symmetry. apply startswith_spec. rewrite join_refs_eq, <- app_assoc.
          eexists. cbn [app]. reflexivity. }
      cbn [List.length Nat.pred]. rewrite !join_refs_eq, <- !app_assoc.
      rewrite replace_skip, <- !join_refs_eq, IH by auto. reflexivity. }
  apply G.
Qed.

(** ** One value *)

(** The value an attribute has after the second loop: the last id that occurs wins. *)
Definition final_value (idl : list str) (s v : str) : str :=
  fold_left (fun acc e_id => if contains e_id v then replace_all e_id (e_id ++ s) v else acc)
    idl v.

Lemma final_none : forall idl s v, (forall e, In e idl -> contains e v = false) ->
  final_value idl s v = v.
Proof.
  intros idl s v. unfold final_value.
  assert (G : forall acc, (forall e, In e idl -> contains e v = false) ->
    fold_left (fun acc e_id => if contains e_id v then replace_all e_id (e_id ++ s) v else acc)
      idl acc = acc).
  { induction idl as [|e idl IH]; intros acc H; cbn [fold_left]; auto.
    rewrite (H e) by now left. apply IH. intros x X. apply H. now right. }
  apply G.
Qed.

Lemma final_one : forall idl s v i, In i idl -> contains i v = true ->
  (forall e, In e idl -> e <> i -> contains e v = false) ->
  final_value idl s v = replace_all i (i ++ s) v.
Proof.
  intros idl s v i Hi C H. unfold final_value.
  assert (G : forall acc, (In i idl \/ acc = replace_all i (i ++ s) v) ->
    (forall e, In e idl -> e <> i -> contains e v = false) ->
    fold_left (fun acc e_id => if contains e_id v then replace_all e_id (e_id ++ s) v else acc)
      idl acc = replace_all i (i ++ s) v).
  { clear Hi H. induction idl as [|e idl IH]; intros acc D H; cbn [fold_left].
    - destruct D as [[]|D]; auto.
    - destruct (list_eq_dec N.eq_dec e i) as [->|Ne].
      + rewrite C. apply IH; [now right|]. intros x X. apply H. now right.
      + rewrite (H e) by (auto; now left). apply IH.
        * destruct D as [[D|D]|D]; [contradiction|now left|now right].
        * intros x X. apply H. now right. }
  apply G; auto.
Qed.

Lemma final_nohash : forall all s v, ~ In hash v ->
  final_value (map (fun i => pys "#" ++ i) all) s v = v.
Proof.
  intros all s v H. apply final_none. intros e E. apply in_map_iff in E.
  destruct E as (j & <- & _). rewrite <- (app_nil_r v).
  change (pys "#" ++ j) with (hash :: j). now rewrite contains_skip.
Qed.

Lemma final_refs : forall all s i v a ps, (forall j, In j all -> ~ In hash j) ->
  In i all -> refers_only all i v a ps ->
  final_value (map (fun i => pys "#" ++ i) all) s v =
  join_refs a (map (fun p => (i ++ s) ++ p) ps).
Proof.
  intros all s i v a ps Hall Hi (E & Ha & Hp & Ho).
  assert (Fp : Forall (fun p => ~ In hash p) ps) by (apply Forall_forall; auto).
  assert (Fi : Forall (fun w => ~ In hash w) (map (fun p => i ++ p) ps)).
  { apply Forall_forall. intros w W. apply in_map_iff in W. destruct W as (p & <- & P).
    intros X. apply in_app_or in X. destruct X as [X|X]; [now apply (Hall i)|now apply (Hp p)]. }
  destruct ps as [|p ps].
  - cbn in E |- *. subst v. now apply final_nohash.
  - rewrite (final_one _ s v (hash :: i)).
    + subst v. apply replace_refs; auto.
    + apply in_map_iff. exists i. auto.
    + subst v. rewrite contains_refs; auto. cbn [map existsb].
      replace (startswith i (i ++ p)) with true; auto. symmetry. apply startswith_spec. eauto.
    + intros e X Ne. apply in_map_iff in X. destruct X as (j & <- & Hj).
      assert (Nj : j <> i) by (intros ->; now apply Ne).
      change (pys "#" ++ j) with (hash :: j). subst v. rewrite contains_refs; auto.
      apply not_true_is_false. intros X. apply existsb_exists in X.
      destruct X as (w & W & S1). apply in_map_iff in W. destruct W as (q & <- & Q).
      apply startswith_spec in S1. destruct S1 as [r R].
      now apply (Ho q j Q Hj Nj r).
Qed.

(** ** Attributes *)

Lemma attr_set_get : forall n v attrs, attr_get n attrs = Some v -> attr_set n v attrs = attrs.
Proof.
  induction attrs as [|[m w] attrs IH]; cbn; intros H; [discriminate|].
  destruct (str_eqb m n); [congruence|]. now rewrite IH.
Qed.
Lemma attr_set_set : forall n v w attrs, attr_set n w (attr_set n v attrs) = attr_set n w attrs.
Proof.
  induction attrs as [|[m u] attrs IH]; cbn.
  - now rewrite str_eqb_refl'.
  - destruct (str_eqb m n) eqn:E; cbn; rewrite E; auto. now rewrite IH.
Qed.
Lemma attr_get_set : forall n v attrs, attr_get n (attr_set n v attrs) = Some v.
Proof.
  induction attrs as [|[m u] attrs IH]; cbn.
  - now rewrite str_eqb_refl'.
  - destruct (str_eqb m n) eqn:E; cbn; rewrite E; auto.
Qed.
Lemma attr_get_set_other : forall n m v attrs, n <> m ->
  attr_get m (attr_set n v attrs) = attr_get m attrs.
Proof.
  intros n m v attrs H. induction attrs as [|[k u] attrs IH]; cbn.
  - apply str_eqb_neq in H. now rewrite H.
  - destruct (str_eqb k n) eqn:E; cbn.
    + apply str_eqb_eq in E; subst k. apply str_eqb_neq in H. now rewrite H.
    + now rewrite IH.
Qed.
Lemma attr_set_names : forall n v attrs, attr_get n attrs <> None ->
  map fst (attr_set n v attrs) = map fst attrs.
Proof.
  induction attrs as [|[k u] attrs IH]; cbn; intros H; [exfalso; now apply H|].
  destruct (str_eqb k n); cbn; auto. now rewrite IH.
Qed.

Lemma rename_item_spec : forall idl s attrs n v, attr_get n attrs = Some v ->
  rename_item idl s attrs (n, v) = attr_set n (final_value idl s v) attrs.
Proof.
  intros idl s attrs n v H. unfold rename_item, final_value. cbn [fst snd].
  assert (G : forall acc, fold_left (rename_one s n v) idl (attr_set n acc attrs) =
    attr_set n (fold_left (fun acc e_id =>
      if contains e_id v then replace_all e_id (e_id ++ s) v else acc) idl acc) attrs).
  { induction idl as [|e idl IH]; intros acc; cbn [fold_left]; auto.
    unfold rename_one at 2. destruct (contains e v); [rewrite attr_set_set|]; apply IH. }
  rewrite <- G, (attr_set_get _ _ _ H). reflexivity.
Qed.

Lemma rename_attrs_get : forall idl s attrs n, NoDup (map fst attrs) ->
  attr_get n (rename_attrs idl s attrs) =
  option_map (final_value idl s) (attr_get n attrs).
Proof.
  intros idl s attrs n ND. unfold rename_attrs.
  assert (G : forall todo cur, NoDup (map fst todo) ->
    (forall m v, In (m, v) todo -> attr_get m cur = Some v) ->
    attr_get n (fold_left (rename_item idl s) todo cur) =
    match attr_get n todo with Some v => Some (final_value idl s v) | None => attr_get n cur end).
  { clear. induction todo as [|[m v] todo IH]; intros cur ND H; cbn [fold_left attr_get]; auto.
    inversion ND as [|? ? N1 N2]; subst.
    rewrite rename_item_spec by (apply H; now left). rewrite IH; auto.
    - destruct (str_eqb m n) eqn:E.
      + apply str_eqb_eq in E; subst m.
        assert (X : attr_get n todo = None).
        { clear - N1. induction todo as [|[k u] todo IHt]; cbn; auto.
          destruct (str_eqb k n) eqn:E; [apply str_eqb_eq in E; exfalso; apply N1; left; auto|].
          apply IHt. intros X. apply N1. now right. }
        rewrite X. apply attr_get_set.
      + apply str_eqb_neq in E. destruct (attr_get n todo); auto.
        now apply attr_get_set_other.
    - intros k u X. rewrite attr_get_set_other; [apply H; now right|].
      intros <-. apply N1. apply in_map_iff. exists (m, u). auto. }
  rewrite G; auto.
  - destruct (attr_get n attrs); reflexivity.
  - clear - ND. induction attrs as [|[k u] attrs IH]; intros m v X; [destruct X|].
    inversion ND as [|? ? N1 N2]; subst. cbn. destruct X as [X|X].
    + injection X as -> ->. now rewrite str_eqb_refl'.
    + destruct (str_eqb k m) eqn:E; [|now apply IH].
      apply str_eqb_eq in E; subst. exfalso. apply N1. apply in_map_iff. exists (m, v). auto.
Qed.

Lemma suffix_id_get : forall s attrs n, attr_get n (suffix_id s attrs) =
  match attr_get n attrs with
  | Some (c :: i) => Some (if str_eqb n id_attr then (c :: i) ++ s else c :: i)
  | r => r
  end.
Proof.
  intros s attrs n. unfold suffix_id. destruct (str_eqb n id_attr) eqn:E.
  - apply str_eqb_eq in E; subst n. destruct (attr_get id_attr attrs) as [[|c i]|] eqn:A; auto.
    now rewrite attr_get_set.
  - apply str_eqb_neq in E.
    assert (X : attr_get n (match attr_get id_attr attrs with
       | Some (c :: e_id) => attr_set id_attr ((c :: e_id) ++ s) attrs | _ => attrs end) =
       attr_get n attrs).
    { destruct (attr_get id_attr attrs) as [[|c i]|]; auto. apply attr_get_set_other. auto. }
    rewrite X. destruct (attr_get n attrs) as [[|c i]|]; reflexivity.
Qed.

Lemma suffix_id_names : forall s attrs, map fst (suffix_id s attrs) = map fst attrs.
Proof.
  intros s attrs. unfold suffix_id. destruct (attr_get id_attr attrs) as [[|c i]|] eqn:A; auto.
  apply attr_set_names. congruence.
Qed.

(** ** Documents *)

Fixpoint map_kids (f : list (str * str) -> list (str * str)) (l : list (xnode * str)) :=
  match l with [] => [] | (k, t) :: l' => (map_attrs f k, t) :: map_kids f l' end.
Lemma map_attrs_unfold : forall f i tag attrs text kids,
  map_attrs f (XNode i tag attrs text kids) = XNode i tag (f attrs) text (map_kids f kids).
Proof.
  intros. cbn [map_attrs]. f_equal.
  induction kids as [|[k t] l IH]; [reflexivity|]. cbn [map_kids]. now rewrite IH.
Qed.

Lemma map_attrs_iter : forall f n, x_iter (map_attrs f n) = map (map_attrs f) (x_iter n).
Proof.
  intros f n. induction n as [i tag attrs text kids IH] using xnode_ind'.
  rewrite map_attrs_unfold, !x_iter_unfold. cbn [map]. rewrite map_attrs_unfold. f_equal.
  induction IH as [|[c t] l Hc Hl IHl]; cbn [map_kids iter_kids map]; auto.
  rewrite map_app. cbn [fst] in Hc. now rewrite Hc, IHl.
Qed.
Lemma map_attrs_attrs : forall f n, x_attrs (map_attrs f n) = f (x_attrs n).
Proof. intros f [i tag attrs text kids]. reflexivity. Qed.
Lemma map_attrs_ids : forall f n, ids (map_attrs f n) = ids n.
Proof.
  intros. unfold ids. rewrite map_attrs_iter, map_map. apply map_ext.
  intros [i tag attrs text kids]. reflexivity.
Qed.

(** The ids of a document, in document order. *)
Definition doc_ids (root : xnode) : list str :=
  flat_map (fun n => match attr_get id_attr (x_attrs n) with
                     | Some (c :: i) => [c :: i] | _ => [] end) (x_iter root).

Lemma collect_ids : forall root,
  flat_map collect_id (x_iter root) = map (fun i => pys "#" ++ i) (doc_ids root).
Proof.
  intros root. unfold doc_ids. induction (x_iter root) as [|n l IH]; cbn [flat_map]; auto.
  rewrite map_app, IH. f_equal. unfold collect_id.
  destruct (attr_get id_attr (x_attrs n)) as [[|c i]|]; reflexivity.
Qed.

Lemma doc_ids_in : forall root i, In i (doc_ids root) <->
  i <> [] /\ exists n, In n (x_iter root) /\ attr_get id_attr (x_attrs n) = Some i.
Proof.
  intros root i. unfold doc_ids. rewrite in_flat_map. split.
  - intros (n & N & X). destruct (attr_get id_attr (x_attrs n)) as [[|c j]|] eqn:A; try now destruct X.
    destruct X as [<-|[]]. split; [discriminate|eauto].
  - intros (Ne & n & N & A). exists n. split; auto. rewrite A. destruct i; [congruence|now left].
Qed.

Lemma rename_nth : forall root s k, nth_error (x_iter (rename_ids root s)) k =
  option_map (fun n => map_attrs (rename_attrs (map (fun i => pys "#" ++ i) (doc_ids root)) s)
    (map_attrs (suffix_id s) n)) (nth_error (x_iter root) k).
Proof.
  intros root s k. unfold rename_ids. rewrite !map_attrs_iter, map_map, collect_ids.
  rewrite nth_error_map. reflexivity.
Qed.

(** The attribute [name] of an element after the renaming. *)
Lemma rename_attr : forall root s k n name, nth_error (x_iter root) k = Some n ->
  NoDup (map fst (x_attrs n)) ->
  exists n', nth_error (x_iter (rename_ids root s)) k = Some n' /\ x_id n' = x_id n /\
    attr_get name (x_attrs n') =
    option_map (final_value (map (fun i => pys "#" ++ i) (doc_ids root)) s)
      (attr_get name (suffix_id s (x_attrs n))).
Proof.
  intros root s k n name N ND. rewrite rename_nth, N. cbn [option_map].
  eexists. split; [reflexivity|]. split; [destruct n; reflexivity|].
  rewrite !map_attrs_attrs. apply rename_attrs_get. now rewrite suffix_id_names.
Qed.
