From Coq Require Import List ZArith NArith QArith Bool String Lia.
From Verif Require Import Py PyFacts StyleModel StyleSpec.
Import ListNotations.
Local Open Scope nat_scope.

Lemma get_put : forall s x v y, get (put s x v) y =
  if (match x, y with
      | Font, Font | Size, Size | Align, Align | LineSpacing, LineSpacing | Color, Color
      | Bold, Bold | Italic, Italic | VariantNumeric, VariantNumeric | Opacity, Opacity
      | Priority, Priority => true | _, _ => false end) then v else get s y.
Proof. intros s x v y. destruct x, y; reflexivity. Qed.

Lemma update1_get : forall b s y x, get (update1 b s y) x =
  if (match y, x with
      | Font, Font | Size, Size | Align, Align | LineSpacing, LineSpacing | Color, Color
      | Bold, Bold | Italic, Italic | VariantNumeric, VariantNumeric | Opacity, Opacity
      | Priority, Priority => true | _, _ => false end)
  then match get b x with PNone => get s x | v => v end else get s x.
Proof.
  intros b s y x. unfold update1.
  destruct (get b y) eqn:E; [|rewrite get_put..]; destruct y, x; cbv iota; auto;
    rewrite E; reflexivity.
Qed.

Lemma update_get : forall a b x, get (update a b) x =
  match get b x with PNone => get a x | v => v end.
Proof.
  intros a b x. unfold update, slots. cbn [fold_left].
  repeat rewrite update1_get. destruct x; reflexivity.
Qed.

Lemma style_eq : forall a b, (forall x, get a x = get b x) -> a = b.
Proof.
  intros [] [] H. f_equal.
  - exact (H Font). - exact (H Size). - exact (H Align). - exact (H LineSpacing).
  - exact (H Color). - exact (H Bold). - exact (H Italic). - exact (H VariantNumeric).
  - exact (H Opacity). - exact (H Priority).
Qed.

Lemma update_assoc : forall a b c, update (update a b) c = update a (update b c).
Proof.
  intros a b c. apply style_eq. intros x. repeat rewrite update_get.
  destruct (get c x), (get b x); reflexivity.
Qed.

Lemma combined_update : forall a b, combined a b (update a b).
Proof.
  intros a b x. rewrite update_get. destruct (get b x); auto; left; split; congruence.
Qed.
Lemma combined_unique : forall a b c, combined a b c -> c = update a b.
Proof.
  intros a b c H. apply style_eq. intros x. rewrite update_get.
  destruct (H x) as [[H1 H2]|[H1 H2]]; rewrite H2; destruct (get b x); congruence.
Qed.

(** ** Validation *)

Lemma mem_choice : forall s l, existsb (str_eqb s) (map pys l) = true <->
  exists x, In x l /\ s = pys x.
Proof.
  intros s l. rewrite existsb_exists. split.
  - intros [y [H1 H2]]. apply in_map_iff in H1. destruct H1 as [x [<- H1]].
    exists x. split; auto. now apply str_eqb_eq.
  - intros [x [H1 ->]]. exists (pys x). split; [now apply in_map|]. now apply str_eqb_eq.
Qed.

Lemma check_ok : forall x v v', check x v = Ok v' <-> v' = v /\ allowed x v.
Proof.
  assert (Hs : forall v v', check_string v = Ok v' <-> v' = v /\ (v = PNone \/ is_string v)).
  { intros v v'. unfold is_string. destruct v; cbn; split; intros H; try discriminate.
    all: try (split; [congruence|eauto]).
    all: try (destruct H as [-> H]; auto).
    all: destruct H as [H|[? H]]; discriminate. }
  assert (Hn : forall v v', check_number v = Ok v' <-> v' = v /\ (v = PNone \/ is_number v)).
  { intros v v'. unfold is_number. destruct v; cbn; split; intros H; try discriminate.
    all: try (split; [congruence|eauto]).
    all: try (destruct H as [-> H]; auto).
    all: destruct H as [H|[[? H]|[? H]]]; discriminate. }
  assert (Hb : forall v v', check_bool v = Ok v' <-> v' = v /\ (v = PNone \/ exists b, v = PBool b)).
  { intros v v'. destruct v; cbn; split; intros H; try discriminate.
    all: try (split; [congruence|eauto]).
    all: try (destruct H as [-> H]; auto).
    all: destruct H as [H|[? H]]; discriminate. }
  assert (Hc : forall l v v', check_choice v (map pys l) = Ok v' <->
    v' = v /\ (v = PNone \/ one_of v l)).
  { intros l v v'. unfold one_of. destruct v; cbn [check_choice].
    - split; [intros H; split; [congruence|auto] | intros [-> _]; reflexivity].
    - destruct (existsb (str_eqb s) (map pys l)) eqn:E.
      + split; [|intros [-> _]; reflexivity]. intros H. split; [congruence|]. right.
        apply mem_choice in E. destruct E as [x [H1 ->]]. eauto.
      + split; [discriminate|]. intros [_ [H|[x [H1 H2]]]]; [discriminate|].
        exfalso. assert (existsb (str_eqb s) (map pys l) = true); [|congruence].
        apply mem_choice. exists x. split; auto. congruence.
    - split; [discriminate|]. intros [_ [H|[x [H1 H2]]]]; discriminate.
    - split; [discriminate|]. intros [_ [H|[x [H1 H2]]]]; discriminate.
    - split; [discriminate|]. intros [_ [H|[x [H1 H2]]]]; discriminate. }
  intros x v v'. destruct x; cbn [check allowed]; auto.
  - apply Hc.
  - apply Hc.
  - destruct v; cbn; split; intros H; try discriminate.
    all: try (split; [congruence | unfold is_number; eauto]).
    all: try (destruct H as [-> [[? H]|[? H]]]; congruence || discriminate).
    all: destruct H as [-> [[? H]|[? H]]]; auto.
Qed.

Lemma set_attr_ok : forall s x v s', set_attr s x v = Ok s' <-> allowed x v /\ s' = put s x v.
Proof.
  intros s x v s'. unfold set_attr. destruct (check x v) as [v'|e] eqn:E.
  - apply check_ok in E. destruct E as [-> E]. cbn. split; [|intros [_ ->]; reflexivity].
    intros H. split; auto. congruence.
  - split; [discriminate|]. intros [H _].
    assert (check x v = Ok v) by (apply check_ok; auto). congruence.
Qed.

Lemma put_valid : forall s x v, valid_style s -> allowed x v -> valid_style (put s x v).
Proof.
  intros s x v H1 H2 y. rewrite get_put. specialize (H1 y). destruct x, y; auto.
Qed.
Lemma no_args_valid : valid_style no_args.
Proof.
  intros []; cbn; auto. left. eauto.
Qed.
Lemma update_valid : forall a b, valid_style a -> valid_style b -> valid_style (update a b).
Proof.
  intros a b Ha Hb x. rewrite update_get. specialize (Ha x). specialize (Hb x).
  destruct (get b x); auto.
Qed.

Lemma init_valid : forall args l s s', init_from args l s = Ok s' -> valid_style s ->
  valid_style s' /\ (forall x, In x l -> allowed x (get args x)) /\
  forall y, (In y l -> get s' y = get args y) /\ (~ In y l -> get s' y = get s y).
Proof.
  intros args l. induction l as [|x l IH]; intros s s' H V; cbn [init_from] in H.
  - assert (s' = s) by congruence. subst s'. split; auto. split; [intros x []|].
    intros y. split; [intros []|auto].
  - destruct (set_attr s x (get args x)) as [s1|e] eqn:E; [|discriminate].
    cbn in H. apply set_attr_ok in E. destruct E as [E ->].
    destruct (IH _ _ H (put_valid _ _ _ V E)) as [H1 [H2 H3]].
    split; auto. split; [intros y [<-|Hy]; auto|].
    assert (D : forall a b : attr, {a = b} + {a <> b}) by decide equality.
    intros y. destruct (H3 y) as [H4 H5]. destruct (in_dec D y l) as [Hy|Hy].
    + split; auto. intros Hn. exfalso. apply Hn. now right.
    + rewrite (H5 Hy), get_put. split.
      * intros [->|Hy']; [|contradiction]. destruct y; reflexivity.
      * intros Hn. destruct x, y; auto; exfalso; apply Hn; now left.
Qed.

Lemma init_total : forall args l s, (forall x, In x l -> allowed x (get args x)) ->
  exists s', init_from args l s = Ok s'.
Proof.
  intros args l. induction l as [|x l IH]; intros s H; cbn [init_from]; eauto.
  assert (E : set_attr s x (get args x) = Ok (put s x (get args x))).
  { apply set_attr_ok. split; auto. apply H. now left. }
  rewrite E. cbn. apply IH. intros y Hy. apply H. now right.
Qed.

Lemma all_slots : forall x, In x slots.
Proof. intros []; cbn; tauto. Qed.

Lemma make_style_ok : forall args s, make_style args = Ok s <-> valid_style args /\ s = args.
Proof.
  intros args s. unfold make_style. split.
  - intros H. apply init_valid in H; [|apply no_args_valid]. destruct H as [H1 [H2 H3]].
    assert (s = args).
    { apply style_eq. intros x. apply H3. apply all_slots. }
    subst s. auto.
  - intros [V ->]. destruct (init_total args slots no_args) as [s' H]; [intros x _; apply V|].
    rewrite H. apply init_valid in H; [|apply no_args_valid]. destruct H as [_ [_ H3]].
    f_equal. apply style_eq. intros x. apply H3. apply all_slots.
Qed.

(** ** Lists *)

Lemma nth_replace_same : forall {A} n (x d : A) l, n < List.length l ->
  nth n (replace_nth n x l) d = x.
Proof.
  intros A n x d l. revert n. induction l as [|y l IH]; intros [|n] H; cbn in *; try lia; auto.
  apply IH. lia.
Qed.
Lemma nth_replace_other : forall {A} n m (x d : A) l, n <> m ->
  nth m (replace_nth n x l) d = nth m l d.
Proof.
  intros A n m x d l. revert n m. induction l as [|y l IH]; intros [|n] [|m] H; cbn; auto;
    try lia. all: destruct n; auto.
Qed.
Lemma length_replace : forall {A} n (x : A) l, List.length (replace_nth n x l) = List.length l.
Proof.
  intros A n x l. revert n. induction l as [|y l IH]; intros [|n]; cbn; auto.
Qed.
Lemma nth_error_replace_other : forall {A} n m (x : A) l, n <> m ->
  nth_error (replace_nth n x l) m = nth_error l m.
Proof.
  intros A n m x l. revert n m. induction l as [|y l IH]; intros [|n] [|m] H; cbn; auto;
    try lia. all: destruct n; auto.
Qed.
Lemma nth_error_replace_same : forall {A} n (x : A) l, n < List.length l ->
  nth_error (replace_nth n x l) n = Some x.
Proof.
  intros A n x l. revert n. induction l as [|y l IH]; intros [|n] H; cbn in *; try lia; auto.
  apply IH. lia.
Qed.
Lemma nth_app_old : forall {A} n (l l' : list A) d, n < List.length l ->
  nth n (l ++ l') d = nth n l d.
Proof. intros. now apply app_nth1. Qed.
Lemma nth_app_new : forall {A} (l : list A) x d, nth (List.length l) (l ++ [x]) d = x.
Proof. intros. rewrite app_nth2, Nat.sub_diag; auto. Qed.
Lemma nth_error_nth_style : forall w l, l < List.length (w_styles w) ->
  nth_error (w_styles w) l = Some (style_at w l).
Proof. intros. unfold style_at. now apply nth_error_nth'. Qed.

(** ** Well formed worlds *)

Record wf (w : world) : Prop := mkWf {
  wf_conts : forall c, c < List.length (w_conts w) ->
    nth c (w_conts w) 0 < List.length (w_dicts w);
  wf_dicts : forall d n l, assoc n (nth d (w_dicts w) []) = Some l ->
    l < List.length (w_styles w);
  wf_deck : 0 < List.length (w_conts w)
}.

(** What an action may do to the world besides changing style objects in place: add
    styles, dictionaries and containers, and give one container a new dictionary. *)
Definition extends_styles (w w' : world) : Prop := exists l, w_styles w' = w_styles w ++ l.
Definition keeps_dicts (w w' : world) : Prop := exists l, w_dicts w' = w_dicts w ++ l.

Lemma known_dict : forall w c n, known w c n = known_in_dict w (nth c (w_conts w) 0) n.
Proof. reflexivity. Qed.

(** Adding styles and dictionaries does not change what is known in old dictionaries. *)
Lemma known_in_dict_extend : forall w w' d n, wf w -> d < List.length (w_dicts w) ->
  extends_styles w w' -> keeps_dicts w w' -> known_in_dict w' d n = known_in_dict w d n.
Proof.
  intros w w' d n W Hd [ls Hs] [ld Hk]. unfold known_in_dict. rewrite Hs, Hk.
  rewrite nth_app_old by auto. destruct (assoc n (nth d (w_dicts w) [])) as [l|] eqn:E; auto.
  apply nth_error_app1. eapply wf_dicts; eauto.
Qed.

Lemma assoc_cons : forall {A} k k' (v : A) d,
  assoc k ((k', v) :: d) = if str_eqb k k' then Some v else assoc k d.
Proof. reflexivity. Qed.

(** ** The elementary steps *)

Lemma alloc_style_facts : forall w s w' k, alloc_style w s = (w', k) ->
  k = List.length (w_styles w) /\ w_styles w' = w_styles w ++ [s] /\
  w_dicts w' = w_dicts w /\ w_conts w' = w_conts w.
Proof. intros w s w' k H. unfold alloc_style in H. injection H as <- <-. auto. Qed.

(** bind_style, in closed form. *)
Lemma bind_style_eq : forall w c n l, wf w -> c < List.length (w_conts w) ->
  bind_style w c n l = mkWorld (w_styles w) (w_dicts w ++ [(n, l) :: entries w c])
    (replace_nth c (List.length (w_dicts w)) (w_conts w)).
Proof.
  intros w c n l W Hc. unfold bind_style, alloc_dict, write_dict, dict_of.
  cbn [w_styles w_dicts w_conts]. rewrite nth_replace_same by auto.
  rewrite nth_app_new. f_equal.
  generalize (entries w c) as e. generalize (w_dicts w) as ds. clear.
  intros ds e. generalize ((n, l) :: e) as x. intros x.
  induction ds as [|d ds IH]; cbn; auto. now rewrite IH.
Qed.

Lemma write_new_style : forall w s s', write_style (mkWorld (w_styles w ++ [s]) (w_dicts w) (w_conts w))
  (List.length (w_styles w)) s' = mkWorld (w_styles w ++ [s']) (w_dicts w) (w_conts w).
Proof.
  intros w s s'. unfold write_style. cbn [w_styles w_dicts w_conts]. f_equal.
  generalize (w_styles w) as l. induction l as [|x l IH]; cbn; auto. now rewrite IH.
Qed.

Lemma get_style_facts : forall w c a full w' k, get_style w c a full = Ok (w', k) ->
  exists s, (w', k) = alloc_style w s /\
    (forall n, a = ByName n -> full = false -> exists l, assoc n (entries w c) = Some l /\
        s = style_at w l).
Proof.
  intros w c a full w' k H. unfold get_style in H. destruct a as [n|l|]; [| |discriminate].
  - destruct (assoc n (entries w c)) as [l|] eqn:E; [|discriminate].
    destruct (str_eqb n default_).
    + exists (style_at w l). split; [unfold copy_style in H; congruence|].
      intros n' Hn _. injection Hn as <-. eauto.
    + destruct full; cbn [negb] in H.
      * destruct (assoc default_ (entries w c)) as [b|]; [|discriminate].
        exists (compose (style_at w b) (style_at w l)).
        split; [unfold alloc_style in *; congruence|]. discriminate.
      * exists (style_at w l). split; [unfold copy_style in H; congruence|].
        intros n' Hn _. injection Hn as <-. eauto.
  - destruct full; cbn [negb] in H.
    + destruct (assoc default_ (entries w c)) as [b|]; [|discriminate].
      exists (compose (style_at w b) (style_at w l)).
      split; [unfold alloc_style in *; congruence|]. discriminate.
    + exists (style_at w l). split; [unfold copy_style in H; congruence|]. discriminate.
Qed.

Lemma style_at_old : forall w s l, l < List.length (w_styles w) ->
  style_at (mkWorld (w_styles w ++ [s]) (w_dicts w) (w_conts w)) l = style_at w l.
Proof. intros w s l H. unfold style_at. cbn [w_styles]. now apply nth_app_old. Qed.
Lemma style_at_new : forall w s,
  style_at (mkWorld (w_styles w ++ [s]) (w_dicts w) (w_conts w)) (List.length (w_styles w)) = s.
Proof. intros w s. unfold style_at. cbn [w_styles]. apply nth_app_new. Qed.

Lemma wf_alloc : forall w s, wf w ->
  wf (mkWorld (w_styles w ++ [s]) (w_dicts w) (w_conts w)).
Proof.
  intros w s W. split; cbn [w_styles w_dicts w_conts].
  - intros c Hc. now apply (wf_conts w W).
  - intros d n l H. apply (wf_dicts w W) in H. rewrite app_length. cbn. lia.
  - apply (wf_deck w W).
Qed.

(** set_style and update_style, in closed form: the new style [s], and the object [k]
    bound to the name. *)
Lemma update_style_eq : forall w c n l w' k, wf w -> c < List.length (w_conts w) ->
  l < List.length (w_styles w) -> update_style w c n l = Ok (w', k) ->
  exists old, assoc n (entries w c) = Some old /\ k = List.length (w_styles w) /\
  w' = mkWorld (w_styles w ++ [update (style_at w old) (style_at w l)])
    (w_dicts w ++ [(n, k) :: entries w c])
    (replace_nth c (List.length (w_dicts w)) (w_conts w)).
Proof.
  intros w c n l w' k W Hc Hl H. unfold update_style in H.
  destruct (get_style w c (ByName n) false) as [[w1 o]|e] eqn:E; [|discriminate].
  cbn [rbind] in H. apply get_style_facts in E. destruct E as [s [E1 E2]].
  destruct (E2 n eq_refl eq_refl) as [old [H1 ->]]. unfold alloc_style in E1.
  injection E1 as -> ->. exists old. split; auto.
  rewrite style_at_new, style_at_old, write_new_style in H by auto.
  rewrite bind_style_eq in H.
  - unfold entries, dict_of in H |- *. cbn [w_styles w_dicts w_conts] in H.
    injection H as <- <-. auto.
  - now apply wf_alloc.
  - exact Hc.
Qed.

Lemma set_style_eq : forall w c n l base w' k, wf w -> c < List.length (w_conts w) ->
  l < List.length (w_styles w) -> set_style w c n l base = Ok (w', k) ->
  (base = default_ /\ k = l /\
   w' = mkWorld (w_styles w) (w_dicts w ++ [(n, l) :: entries w c])
     (replace_nth c (List.length (w_dicts w)) (w_conts w))) \/
  (base <> default_ /\ exists b, assoc base (entries w c) = Some b /\
   k = List.length (w_styles w) /\
   w' = mkWorld (w_styles w ++ [update (style_at w b) (style_at w l)])
     (w_dicts w ++ [(n, k) :: entries w c])
     (replace_nth c (List.length (w_dicts w)) (w_conts w))).
Proof.
  intros w c n l base w' k W Hc Hl H. unfold set_style in H.
  destruct (str_eqb base default_) eqn:D.
  - left. apply str_eqb_eq in D. rewrite bind_style_eq in H by auto.
    injection H as <- <-. auto.
  - right. split; [intro X; apply str_eqb_eq in X; congruence|].
    destruct (get_style w c (ByName base) false) as [[w1 o]|e] eqn:E; [|discriminate].
    cbn [rbind] in H. apply get_style_facts in E. destruct E as [s [E1 E2]].
    destruct (E2 base eq_refl eq_refl) as [old [H1 ->]]. unfold alloc_style in E1.
    injection E1 as -> ->. exists old. split; auto.
    rewrite style_at_new, style_at_old, write_new_style in H by auto.
    rewrite bind_style_eq in H.
    + unfold entries, dict_of in H |- *. cbn [w_styles w_dicts w_conts] in H.
      injection H as <- <-. auto.
    + now apply wf_alloc.
    + exact Hc.
Qed.

(** What an action did. *)
Inductive did (w : world) : action -> result nat -> world -> Prop :=
| did_fail : forall a e, did w a (Err e) w
| did_box : forall c, c < List.length (w_conts w) ->
    did w (ANewBox c) (Ok (List.length (w_conts w)))
      (mkWorld (w_styles w) (w_dicts w) (w_conts w ++ [nth c (w_conts w) 0]))
| did_slide :
    did w ANewSlide (Ok (List.length (w_conts w)))
      (mkWorld (w_styles w) (w_dicts w ++ [nth (nth 0 (w_conts w) 0) (w_dicts w) []])
         (w_conts w ++ [List.length (w_dicts w)]))
| did_new : forall a s,
    match a with
    | AStyle args => valid_style args /\ s = args
    | ACompose l l' => l < List.length (w_styles w) /\ l' < List.length (w_styles w) /\
        s = update (style_at w l) (style_at w l')
    | ACopy l => l < List.length (w_styles w) /\ s = style_at w l
    | AGet c x full => c < List.length (w_conts w) /\
        match x with ByStyle l => l < List.length (w_styles w) | _ => True end /\
        get_style w c x full = Ok (alloc_style w s)
    | _ => False
    end ->
    did w a (Ok (List.length (w_styles w)))
      (mkWorld (w_styles w ++ [s]) (w_dicts w) (w_conts w))
| did_assign : forall l x v, l < List.length (w_styles w) -> allowed x v ->
    did w (AAssign l x v) (Ok l)
      (mkWorld (replace_nth l (put (style_at w l) x v) (w_styles w)) (w_dicts w) (w_conts w))
| did_update : forall l l', l < List.length (w_styles w) -> l' < List.length (w_styles w) ->
    did w (AUpdate l l') (Ok l)
      (mkWorld (replace_nth l (update (style_at w l) (style_at w l')) (w_styles w)) (w_dicts w)
         (w_conts w))
| did_bind_old : forall c n l, c < List.length (w_conts w) -> l < List.length (w_styles w) ->
    did w (ASetStyle c n l default_) (Ok l)
      (mkWorld (w_styles w) (w_dicts w ++ [(n, l) :: entries w c])
         (replace_nth c (List.length (w_dicts w)) (w_conts w)))
| did_bind_new : forall a c n l base b, c < List.length (w_conts w) ->
    l < List.length (w_styles w) -> assoc base (entries w c) = Some b ->
    (a = AUpdateStyle c n l /\ base = n \/ a = ASetStyle c n l base /\ base <> default_) ->
    did w a (Ok (List.length (w_styles w)))
      (mkWorld (w_styles w ++ [update (style_at w b) (style_at w l)])
         (w_dicts w ++ [(n, List.length (w_styles w)) :: entries w c])
         (replace_nth c (List.length (w_dicts w)) (w_conts w))).

Lemma act_did : forall w a w' r, wf w -> act w a = (w', r) -> did w a r w'.
Proof.
  intros w a w' r W H. unfold act in H.
  destruct a as [c| |args|l x v|l l'|l l'|l|c x full|c n l|c n l base].
  - destruct (Nat.ltb_spec c (List.length (w_conts w))); [|injection H as <- <-; constructor].
    injection H as <- <-. now apply did_box.
  - injection H as <- <-. apply did_slide.
  - destruct (make_style args) as [s|e] eqn:E; cbn in H; injection H as <- <-; [|constructor].
    apply make_style_ok in E. now apply did_new.
  - destruct (Nat.ltb_spec l (List.length (w_styles w))); [|injection H as <- <-; constructor].
    destruct (set_attr (style_at w l) x v) as [s|e] eqn:E; cbn in H; injection H as <- <-;
      [|constructor].
    apply set_attr_ok in E. destruct E as [E ->]. now apply did_assign.
  - destruct (Nat.ltb_spec l (List.length (w_styles w))); [|injection H as <- <-; constructor].
    destruct (Nat.ltb_spec l' (List.length (w_styles w))); [|injection H as <- <-; constructor].
    cbn in H. injection H as <- <-. now apply did_update.
  - destruct (Nat.ltb_spec l (List.length (w_styles w))); [|injection H as <- <-; constructor].
    destruct (Nat.ltb_spec l' (List.length (w_styles w))); [|injection H as <- <-; constructor].
    cbn [andb copy_style alloc_style] in H. unfold copy_style, alloc_style in H.
    rewrite style_at_new, style_at_old, write_new_style in H by auto.
    injection H as <- <-. now apply did_new.
  - destruct (Nat.ltb_spec l (List.length (w_styles w))); [|injection H as <- <-; constructor].
    unfold copy_style, alloc_style in H. injection H as <- <-. now apply did_new.
  - destruct (Nat.ltb_spec c (List.length (w_conts w))); [|injection H as <- <-; constructor].
    cbn [andb] in H.
    assert (C : match x with ByStyle l => Nat.ltb l (List.length (w_styles w)) | _ => true end = true ->
      match x with ByStyle l => l < List.length (w_styles w) | _ => True end).
    { destruct x; auto. intros; now apply Nat.ltb_lt. }
    destruct (match x with ByStyle l => Nat.ltb l (List.length (w_styles w)) | _ => true end);
      [|injection H as <- <-; constructor].
    destruct (get_style w c x full) as [[w1 k]|e] eqn:E; injection H as <- <-; [|constructor].
    assert (G := E). apply get_style_facts in E. destruct E as [s [E _]]. unfold alloc_style in E.
    injection E as -> ->. apply did_new. split; [auto|split; [now apply C|exact G]].
  - destruct (Nat.ltb_spec c (List.length (w_conts w))); [|injection H as <- <-; constructor].
    destruct (Nat.ltb_spec l (List.length (w_styles w))); [|injection H as <- <-; constructor].
    cbn [andb] in H. destruct (update_style w c n l) as [[w1 k]|e] eqn:E;
      injection H as <- <-; [|constructor].
    apply update_style_eq in E; auto. destruct E as [old [E1 [-> ->]]].
    eapply did_bind_new; eauto.
  - destruct (Nat.ltb_spec c (List.length (w_conts w))); [|injection H as <- <-; constructor].
    destruct (Nat.ltb_spec l (List.length (w_styles w))); [|injection H as <- <-; constructor].
    cbn [andb] in H. destruct (set_style w c n l base) as [[w1 k]|e] eqn:E;
      injection H as <- <-; [|constructor].
    apply set_style_eq in E; auto.
    destruct E as [[-> [-> ->]]|[Hb [b [E1 [-> ->]]]]].
    + now apply did_bind_old.
    + eapply did_bind_new; eauto.
Qed.

Lemma wf_bind : forall w ss n k c, wf w -> c < List.length (w_conts w) ->
  k < List.length (w_styles w ++ ss) ->
  wf (mkWorld (w_styles w ++ ss) (w_dicts w ++ [(n, k) :: entries w c])
         (replace_nth c (List.length (w_dicts w)) (w_conts w))).
Proof.
  intros w ss n k c W Hc Hk. split; cbn [w_styles w_dicts w_conts].
  - intros c' Hc'. rewrite length_replace in Hc'. rewrite app_length. cbn.
    destruct (Nat.eq_dec c c') as [<-|Hn].
    + rewrite nth_replace_same; auto. lia.
    + rewrite nth_replace_other by auto. apply (wf_conts w W) in Hc'. lia.
  - intros d m l H. destruct (Nat.lt_ge_cases d (List.length (w_dicts w))) as [Hd|Hd].
    + rewrite nth_app_old in H by auto. apply (wf_dicts w W) in H. rewrite app_length. lia.
    + destruct (Nat.eq_dec d (List.length (w_dicts w))) as [->|Hd'].
      * rewrite nth_app_new in H. cbn in H. destruct (str_eqb m n).
        -- injection H as <-. exact Hk.
        -- unfold entries in H. apply (wf_dicts w W) in H. rewrite app_length. lia.
      * rewrite nth_overflow in H; [discriminate|]. rewrite app_length. cbn. lia.
  - rewrite length_replace. apply (wf_deck w W).
Qed.

Lemma did_wf : forall w a r w', wf w -> did w a r w' -> wf w'.
Proof.
  intros w a r w' W H. destruct H.
  - auto.
  - split; cbn [w_styles w_dicts w_conts].
    + intros c' Hc. rewrite app_length in Hc. cbn in Hc.
      destruct (Nat.lt_ge_cases c' (List.length (w_conts w))).
      * rewrite nth_app_old by auto. now apply (wf_conts w W).
      * assert (c' = List.length (w_conts w)) as -> by lia. rewrite nth_app_new.
        now apply (wf_conts w W).
    + apply (wf_dicts w W).
    + rewrite app_length. cbn. lia.
  - split; cbn [w_styles w_dicts w_conts].
    + intros c' Hc. rewrite app_length in Hc |- *. cbn in Hc |- *.
      destruct (Nat.lt_ge_cases c' (List.length (w_conts w))).
      * rewrite nth_app_old by auto. apply (wf_conts w W) in H. lia.
      * assert (c' = List.length (w_conts w)) as -> by lia. rewrite nth_app_new. lia.
    + intros d m l H. destruct (Nat.lt_ge_cases d (List.length (w_dicts w))) as [Hd|Hd].
      * rewrite nth_app_old in H by auto. now apply (wf_dicts w W) in H.
      * destruct (Nat.eq_dec d (List.length (w_dicts w))) as [->|Hd'].
        -- rewrite nth_app_new in H. now apply (wf_dicts w W) in H.
        -- rewrite nth_overflow in H; [discriminate|]. rewrite app_length. cbn. lia.
    + rewrite app_length. cbn. lia.
  - now apply wf_alloc.
  - split; cbn [w_styles w_dicts w_conts]; [apply (wf_conts w W)| |apply (wf_deck w W)].
    intros d n k Hk. rewrite length_replace. now apply (wf_dicts w W) in Hk.
  - split; cbn [w_styles w_dicts w_conts]; [apply (wf_conts w W)| |apply (wf_deck w W)].
    intros d n k Hk. rewrite length_replace. now apply (wf_dicts w W) in Hk.
  - rewrite <- (app_nil_r (w_styles w)) at 1. apply wf_bind; auto. rewrite app_nil_r. auto.
  - apply wf_bind; auto. rewrite app_length. cbn. lia.
Qed.

Lemma number_from_lt : forall named k n l, assoc n (number_from k named) = Some l ->
  k <= l < k + List.length named.
Proof.
  intros named. induction named as [|[m s] named IH]; intros k n l H; cbn in *; [discriminate|].
  destruct (str_eqb n m); [injection H as <-; lia|]. apply IH in H. lia.
Qed.

Lemma new_deck_wf : forall named, wf (new_deck named).
Proof.
  intros named. split; cbn.
  - intros [|c] H; cbn; lia.
  - intros [|[|d]] n l H; cbn in H; try discriminate.
    apply number_from_lt in H. rewrite map_length. lia.
  - lia.
Qed.

Lemma history_wf : forall named t w, history named t w -> wf w.
Proof.
  intros named t w H. induction H as [|t w a w' r H IH E].
  - apply new_deck_wf.
  - eapply did_wf; eauto. eapply act_did; eauto.
Qed.

(** ** What is known after an action *)

Lemma known_bind : forall w ss n k c, wf w -> c < List.length (w_conts w) ->
  k < List.length (w_styles w ++ ss) ->
  let w' := mkWorld (w_styles w ++ ss) (w_dicts w ++ [(n, k) :: entries w c])
         (replace_nth c (List.length (w_dicts w)) (w_conts w)) in
  known w' c n = nth_error (w_styles w ++ ss) k /\
  (forall m, m <> n -> known w' c m = known w c m) /\
  (forall c' m, c' < List.length (w_conts w) -> c' <> c -> known w' c' m = known w c' m).
Proof.
  intros w ss n k c W Hc Hk w'. unfold known. cbn [w' w_styles w_dicts w_conts].
  rewrite nth_replace_same by auto. rewrite nth_app_new. repeat split.
  - rewrite assoc_cons. assert (str_eqb n n = true) as -> by now apply str_eqb_eq. reflexivity.
  - intros m Hm. rewrite assoc_cons. destruct (str_eqb m n) eqn:E.
    { apply str_eqb_eq in E. contradiction. }
    unfold entries, dict_of.
    destruct (assoc m (nth (nth c (w_conts w) 0) (w_dicts w) [])) as [l|] eqn:A; auto.
    apply nth_error_app1. eapply wf_dicts; eauto.
  - intros c' m Hc' Hn. rewrite nth_replace_other by auto.
    rewrite nth_app_old by now apply (wf_conts w W).
    destruct (assoc m (nth (nth c' (w_conts w) 0) (w_dicts w) [])) as [l|] eqn:A; auto.
    apply nth_error_app1. eapply wf_dicts; eauto.
Qed.

Lemma did_known : forall w a r w' c n, wf w -> did w a r w' -> ~ mutates a ->
  c < List.length (w_conts w) -> ~ concerns c n a -> known w' c n = known w c n.
Proof.
  intros w a r w' c n W H Hm Hc Hn. destruct H; cbn [mutates concerns] in Hm, Hn; try tauto.
  - unfold known. cbn [w_styles w_dicts w_conts]. now rewrite nth_app_old by auto.
  - rewrite !known_dict. cbn [w_conts]. rewrite nth_app_old by auto.
    apply known_in_dict_extend; auto.
    + now apply (wf_conts w W).
    + exists []. now rewrite app_nil_r.
    + eexists. reflexivity.
  - rewrite !known_dict. apply known_in_dict_extend; auto.
    + now apply (wf_conts w W).
    + eexists. reflexivity.
    + exists []. now rewrite app_nil_r.
  - destruct (known_bind w [] n0 l c0 W) as [_ [K2 K3]]; auto.
    { now rewrite app_nil_r. }
    rewrite app_nil_r in K2, K3.
    destruct (Nat.eq_dec c c0) as [->|Hd]; [apply K2; intros ->; auto | now apply K3].
  - destruct (known_bind w [update (style_at w b) (style_at w l)] n0
      (List.length (w_styles w)) c0 W) as [_ [K2 K3]]; auto.
    { rewrite app_length. cbn. lia. }
    destruct (Nat.eq_dec c c0) as [->|Hd]; [apply K2; intros -> | now apply K3].
    destruct H2 as [[-> _]|[-> _]]; cbn in Hn; auto.
Qed.

Lemma did_dicts : forall w a r w', did w a r w' -> keeps_dicts w w'.
Proof.
  intros w a r w' H. destruct H; unfold keeps_dicts; cbn [w_dicts];
    try (exists []; now rewrite app_nil_r); eexists; reflexivity.
Qed.
Lemma did_styles : forall w a r w', did w a r w' -> ~ mutates a -> extends_styles w w'.
Proof.
  intros w a r w' H Hm. destruct H; unfold extends_styles; cbn [w_styles]; cbn in Hm; try tauto;
    try (exists []; now rewrite app_nil_r); eexists; reflexivity.
Qed.

(** ** Which style objects are stored *)

Definition stored (w : world) (l : nat) : Prop :=
  exists d n, assoc n (nth d (w_dicts w) []) = Some l.

Lemma did_stored : forall w a r w' l, did w a r w' -> stored w' l ->
  stored w l \/ (r = Ok l /\ match a with AUpdateStyle _ _ _ | ASetStyle _ _ _ _ => True | _ => False end).
Proof.
  assert (B : forall (ds : list dict) n k (e : dict) d m l, e = [] \/ (exists j, e = nth j ds []) ->
    assoc m (nth d (ds ++ [(n, k) :: e]) []) = Some l ->
    (exists d' n', assoc n' (nth d' ds []) = Some l) \/ l = k).
  { intros ds n k e d m l He H. destruct (Nat.lt_ge_cases d (List.length ds)) as [Hd|Hd].
    - rewrite nth_app_old in H by auto. eauto.
    - destruct (Nat.eq_dec d (List.length ds)) as [->|Hd'].
      + rewrite nth_app_new, assoc_cons in H. destruct (str_eqb m n); [right; congruence|].
        destruct He as [-> |[j ->]]; [discriminate|]. left. eauto.
      + rewrite nth_overflow in H; [discriminate|]. rewrite app_length. cbn. lia. }
  intros w a r w' l H [d [n S]]. destruct H; cbn [w_dicts] in S.
  - left. exists d, n. exact S.
  - left. exists d, n. exact S.
  - destruct (Nat.lt_ge_cases d (List.length (w_dicts w))) as [Hd|Hd].
    + rewrite nth_app_old in S by auto. left. exists d, n. exact S.
    + destruct (Nat.eq_dec d (List.length (w_dicts w))) as [->|Hd'].
      * rewrite nth_app_new in S. left. eexists. exists n. exact S.
      * rewrite nth_overflow in S; [discriminate|]. rewrite app_length. cbn. lia.
  - left. exists d, n. exact S.
  - left. exists d, n. exact S.
  - left. exists d, n. exact S.
  - apply B in S; [|right; eexists; reflexivity]. destruct S as [S| ->]; [left; exact S|].
    right. auto.
  - apply B in S; [|right; eexists; reflexivity]. destruct S as [S| ->]; [left; exact S|].
    right. split; auto. destruct H2 as [[-> _]|[-> _]]; exact I.
Qed.

Lemma history_stored : forall named t w l, history named t w -> stored w l ->
  l < List.length named \/ handed_out t l.
Proof.
  intros named t w l H. induction H as [|t w a w' r H IH E]; intros S.
  - destruct S as [[|[|d]] [n S]]; cbn in S; try discriminate.
    apply number_from_lt in S. left. lia.
  - apply act_did in E; [|eapply history_wf; eauto].
    destruct (did_stored _ _ _ _ _ E S) as [S'|[-> Ha]].
    + destruct (IH S') as [|[b [Hb1 Hb2]]]; auto. right. exists b.
      split; auto. apply in_or_app. now left.
    + right. exists a. split; auto. apply in_or_app. right. now left.
Qed.

Lemma write_unstored : forall w l s c n, ~ stored w l ->
  known (mkWorld (replace_nth l s (w_styles w)) (w_dicts w) (w_conts w)) c n = known w c n.
Proof.
  intros w l s c n H. unfold known. cbn [w_styles w_dicts w_conts].
  destruct (assoc n (nth (nth c (w_conts w) 0) (w_dicts w) [])) as [k|] eqn:E; auto.
  apply nth_error_replace_other. intros ->. apply H. eexists. eexists. eauto.
Qed.

(** ** All style objects are valid *)

Lemma replace_in : forall {A} n (x : A) l y, In y (replace_nth n x l) -> y = x \/ In y l.
Proof.
  intros A n x l. revert n. induction l as [|z l IH]; intros [|n] y H; cbn in *; auto.
  - destruct H as [<-|H]; auto.
  - destruct H as [<-|H]; auto. apply IH in H. tauto.
Qed.

Lemma did_valid : forall w a r w', wf w -> did w a r w' ->
  (forall s, In s (w_styles w) -> valid_style s) -> forall s, In s (w_styles w') -> valid_style s.
Proof.
  intros w a r w' W H V.
  assert (At : forall l, valid_style (style_at w l)).
  { intros l. unfold style_at. destruct (nth_in_or_default l (w_styles w) no_args) as [Hi| ->]; auto.
    apply no_args_valid. }
  destruct H; cbn [w_styles]; auto; intros s' Hs.
  - apply in_app_or in Hs. destruct Hs as [Hs|[<-|[]]]; auto.
    destruct a; try contradiction.
    + destruct H as [H ->]. auto.
    + destruct H as [H1 [H2 ->]]. now apply update_valid.
    + destruct H as [H ->]. auto.
    + destruct H as [_ [_ H]]. unfold get_style in H.
      assert (F1 : forall l, Ok (copy_style w l) = Ok (alloc_style w s) -> valid_style s).
      { intros l E. unfold copy_style in E. injection E as E. apply app_inv_head in E.
        injection E as <-. auto. }
      assert (F2 : forall b l, Ok (alloc_style w (compose (style_at w b) (style_at w l))) =
        Ok (alloc_style w s) -> valid_style s).
      { intros b l E. injection E as E. apply app_inv_head in E. injection E as <-.
        now apply update_valid. }
      destruct a as [m|l|]; [| |discriminate].
      * destruct (assoc m (entries w c)) as [l|]; [|discriminate].
        destruct (str_eqb m default_); eauto.
        destruct full; cbn [negb] in H; eauto.
        destruct (assoc default_ (entries w c)); [eauto|discriminate].
      * destruct full; cbn [negb] in H; eauto.
        destruct (assoc default_ (entries w c)); [eauto|discriminate].
  - apply replace_in in Hs. destruct Hs as [-> |Hs]; auto. now apply put_valid.
  - apply replace_in in Hs. destruct Hs as [-> |Hs]; auto. now apply update_valid.
  - apply in_app_or in Hs. destruct Hs as [Hs|[<-|[]]]; auto. now apply update_valid.
Qed.
