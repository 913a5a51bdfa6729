(** Lemmas about the deck. *)
From Coq Require Import List ZArith QArith NArith Bool String Lia.
From Verif Require Import Py PyFacts XmlModel XmlSpec DeckModel DeckSpec.
Import ListNotations.

Lemma name_eqb_eq : forall a b, name_eqb a b = true <-> a = b.
Proof.
  intros [|s|i] [|t|j]; cbn; split; intro H; try discriminate; auto.
  - apply str_eqb_eq in H. now subst.
  - injection H as ->. apply str_eqb_refl.
  - apply Nat.eqb_eq in H. now subst.
  - injection H as ->. apply Nat.eqb_refl.
Qed.

Lemma slides_of_app : forall a b, slides_of (a ++ b) = slides_of a ++ slides_of b.
Proof. intros. unfold slides_of. now rewrite flat_map_app. Qed.
Lemma names_app : forall a b, names (a ++ b) = names a ++ names b.
Proof. intros. unfold names. now rewrite slides_of_app, flat_map_app. Qed.

Lemma names_slide : forall s l, names (ESlide s :: l) =
  match so_name s with Name n => n :: names l | _ => names l end.
Proof. intros s l. unfold names. cbn. destruct (so_name s); reflexivity. Qed.

Lemma in_names : forall n l, In n (names l) <-> exists s, In (ESlide s) l /\ so_name s = Name n.
Proof.
  intros n l. unfold names, slides_of. rewrite in_flat_map. split.
  - intros [s [Hs H]]. apply in_flat_map in Hs. destruct Hs as [e [He Hs]].
    destruct e as [t|f]; [|contradiction]. destruct Hs as [->|[]].
    exists s. split; auto. destruct (so_name s) as [|m|k] eqn:E; try contradiction.
    destruct H as [->|[]]. reflexivity.
  - intros [s [Hs E]]. exists s. split.
    + apply in_flat_map. exists (ESlide s). split; auto. now left.
    + rewrite E. now left.
Qed.

Lemma get_found : forall l n s, get_slide_by_name l n = Ok (Some s) ->
  In (ESlide s) l /\ so_name s = n.
Proof.
  induction l as [|[t|f] l IH]; intros n s H; cbn in H; try discriminate.
  destruct (name_eqb (so_name t) n) eqn:E.
  - injection H as ->. apply name_eqb_eq in E. split; auto. now left.
  - destruct (IH n s H). split; auto. now right.
Qed.
Lemma get_none : forall l n, get_slide_by_name l (Name n) = Ok None -> ~ In n (names l).
Proof.
  induction l as [|[t|f] l IH]; intros n H; cbn [get_slide_by_name] in H; try discriminate; auto.
  destruct (name_eqb (so_name t) (Name n)) eqn:E; [discriminate|]. rewrite names_slide.
  assert (N := IH n H). destruct (so_name t) as [|m|k] eqn:Et; auto.
  intros [->|X]; auto. cbn in E. now rewrite str_eqb_refl in E.
Qed.
Lemma get_no_pdf : forall l n, no_pdf l -> exists r, get_slide_by_name l n = Ok r.
Proof.
  induction l as [|e l IH]; intros n H; cbn; eauto.
  inversion H as [|? ? [s ->] H']; subst. destruct (name_eqb (so_name s) n); eauto.
Qed.

(** The identities of the slides are below the counter and distinct. *)
Definition ids_ok (d : deck) : Prop :=
  NoDup (map so_id (slides_of (dk_slides d))) /\
  Forall (fun s => (so_id s < dk_made d)%nat) (slides_of (dk_slides d)).

Lemma slides_of_slide : forall s l, slides_of (ESlide s :: l) = s :: slides_of l.
Proof. reflexivity. Qed.
Lemma slides_of_pdf : forall f l, slides_of (EPdf f :: l) = slides_of l.
Proof. reflexivity. Qed.

Lemma in_slides : forall s l, In s (slides_of l) <-> In (ESlide s) l.
Proof.
  intros s l. unfold slides_of. rewrite in_flat_map. split.
  - intros [[t|f] [H X]]; [destruct X as [->|[]]; auto|contradiction].
  - intros H. exists (ESlide s). split; auto. now left.
Qed.

(** With distinct names and identities, removing the slide that was found removes exactly
    the slides of that name. *)
Lemma remove_filter : forall l n s, NoDup (names l) -> NoDup (map so_id (slides_of l)) ->
  get_slide_by_name l (Name n) = Ok (Some s) ->
  remove_slide l s = filter (not_named n) l.
Proof.
  induction l as [|[t|f] l IH]; intros n s Hn Hi H; cbn [get_slide_by_name] in H; try discriminate.
  cbn [remove_slide filter not_named]. rewrite names_slide in Hn. rewrite slides_of_slide in Hi.
  cbn [map] in Hi. apply NoDup_cons_iff in Hi. destruct Hi as [Hi1 Hi2].
  destruct (name_eqb (so_name t) (Name n)) eqn:E.
  - injection H as ->. apply name_eqb_eq in E. rewrite E in *. rewrite Nat.eqb_refl.
    rewrite str_eqb_refl. cbn [negb].
    apply NoDup_cons_iff in Hn. destruct Hn as [Hn _]. clear - Hn.
    induction l as [|[t|f] l IH]; [reflexivity| |]; cbn [filter not_named].
    + rewrite names_slide in Hn. destruct (so_name t) as [|m|k].
      * f_equal. now apply IH.
      * destruct (str_eqb m n) eqn:Em.
        -- apply str_eqb_eq in Em. subst. exfalso. apply Hn. now left.
        -- cbn [negb]. f_equal. apply IH. intro X. apply Hn. now right.
      * f_equal. now apply IH.
    + f_equal. now apply IH.
  - destruct (get_found _ _ _ H) as [Hs _].
    destruct (Nat.eqb_spec (so_id t) (so_id s)) as [Ei|Ei].
    { exfalso. apply Hi1. rewrite Ei. apply in_map. now apply in_slides. }
    assert (Nn : NoDup (names l)).
    { destruct (so_name t); auto. now apply NoDup_cons_iff in Hn. }
    destruct (so_name t) as [|m|k] eqn:Et.
    + f_equal. now apply IH.
    + cbn in E. rewrite E. cbn [negb]. f_equal. now apply IH.
    + f_equal. now apply IH.
Qed.

Lemma names_filter : forall n l, names (filter (not_named n) l) =
  filter (fun m => negb (str_eqb m n)) (names l).
Proof.
  intros n. induction l as [|[t|f] l IH]; [reflexivity| |]; cbn [filter not_named].
  - rewrite names_slide. destruct (so_name t) as [|m|k] eqn:E; [| |].
    + rewrite names_slide, E. exact IH.
    + cbn [filter]. destruct (negb (str_eqb m n)); [rewrite names_slide, E; now f_equal|exact IH].
    + rewrite names_slide, E. exact IH.
  - exact IH.
Qed.

Lemma slides_filter : forall n l, exists g, slides_of (filter (not_named n) l) = filter g (slides_of l).
Proof.
  intros n l. exists (fun s => not_named n (ESlide s)).
  induction l as [|[t|f] l IH]; [reflexivity| |].
  - cbn [filter]. rewrite slides_of_slide. cbn [filter]. destruct (not_named n (ESlide t)).
    + rewrite slides_of_slide. now f_equal.
    + exact IH.
  - exact IH.
Qed.

Lemma NoDup_filter_map : forall {A B} (f : A -> B) g l, NoDup (map f l) -> NoDup (map f (filter g l)).
Proof.
  intros A B f g. induction l as [|x l IH]; cbn; intros H; auto.
  apply NoDup_cons_iff in H. destruct H as [H1 H2]. destruct (g x); cbn; auto.
  apply NoDup_cons; auto. intro X. apply H1. apply in_map_iff in X. destruct X as [y [Ey Hy]].
  apply filter_In in Hy. rewrite <- Ey. apply in_map. tauto.
Qed.

Lemma NoDup_snoc : forall {A} (l : list A) x, NoDup l -> ~ In x l -> NoDup (l ++ [x]).
Proof.
  intros A l x H Hx.
  induction l as [|y l IH]; cbn.
  - apply NoDup_cons; [intros []|apply NoDup_nil].
  - apply NoDup_cons_iff in H. destruct H as [H1 H2]. apply NoDup_cons.
    + rewrite in_app_iff. intros [X|[X|[]]]; [auto|]. subst. apply Hx. now left.
    + apply IH; auto. intro X. apply Hx. now right.
Qed.

(** What a successful call does. *)
Definition distinct_names (d : deck) : Prop :=
  dk_policy d <> PIgnore -> NoDup (names (dk_slides d)).

(** A call of new_slide, seen from outside. *)
Definition new_spec (d : deck) (n : name) (v : view) (d' : deck) (s : slide_obj) : Prop :=
  exists l, d' = mkDeck (dk_policy d) (l ++ [ESlide s]) (S (dk_made d)) /\
  s = mkSlide (dk_made d) n (List.length l) /\
  match dk_policy d, n with
  | PIgnore, _ => l = dk_slides d
  | PUnique, Name m => l = dk_slides d /\ ~ In m (names (dk_slides d))
  | PUnique, NoName => l = dk_slides d
  | PReplace, Name m => l = filter (not_named m) (dk_slides d)
  | _, _ => False
  end.

Lemma filter_all : forall {A} (f : A -> bool) l, Forall (fun x => f x = true) l -> filter f l = l.
Proof. intros A f l H. induction H as [|x l Hx H IH]; cbn; auto. rewrite Hx. now f_equal. Qed.
Lemma filter_absent : forall m l, ~ In m (names l) -> filter (not_named m) l = l.
Proof.
  intros m l H. apply filter_all. apply Forall_forall. intros [s|f] Hs; [|reflexivity].
  cbn. destruct (so_name s) as [|m'|k] eqn:E; auto. apply negb_true_iff.
  destruct (str_eqb m' m) eqn:Em; auto. apply str_eqb_eq in Em. subst. exfalso. apply H.
  apply in_names. eauto.
Qed.

Lemma new_slide_spec : forall d n v d' s, ids_ok d -> distinct_names d ->
  new_slide d n v = (d', Ok s) -> new_spec d n v d' s.
Proof.
  intros d n v d' s [Hi _] Hn H. unfold new_slide in H. destruct (view_ok v); [|discriminate].
  destruct (apply_name_policy (dk_policy d) (dk_slides d) n) as [l|e] eqn:E; [|discriminate].
  injection H as <- <-. exists l. split; [reflexivity|]. split; [reflexivity|].
  unfold apply_name_policy in E. unfold distinct_names in Hn.
  destruct (dk_policy d) eqn:P.
  - destruct n as [|m|k]; [congruence| |discriminate].
    destruct (get_slide_by_name (dk_slides d) (Name m)) as [[t|]|e] eqn:G; cbn [rbind] in E;
      try discriminate. split; [congruence|]. now apply get_none.
  - congruence.
  - destruct n as [|m|k]; [discriminate| |discriminate].
    destruct (get_slide_by_name (dk_slides d) (Name m)) as [[t|]|e] eqn:G; cbn [rbind] in E;
      try discriminate.
    + injection E as <-. apply remove_filter; auto. apply Hn. discriminate.
    + injection E as <-. symmetry. apply filter_absent. now apply get_none.
Qed.

Lemma new_slide_inv : forall d n v d' s, ids_ok d -> distinct_names d ->
  new_slide d n v = (d', Ok s) -> ids_ok d' /\ distinct_names d'.
Proof.
  intros d n v d' s Hi Hn H. assert (Sp := new_slide_spec d n v d' s Hi Hn H).
  destruct Sp as [l [-> [-> Sp]]]. destruct Hi as [I1 I2].
  assert (L : exists g, slides_of l = filter g (slides_of (dk_slides d))).
  { assert (Id : forall l0, filter (fun _ : slide_obj => true) l0 = l0)
      by (intro l0; apply filter_all; apply Forall_forall; auto).
    destruct (dk_policy d), n as [|m|k]; try contradiction;
      try (subst; exists (fun _ => true); now rewrite Id).
    - destruct Sp as [-> _]. exists (fun _ => true). now rewrite Id.
    - subst. apply slides_filter. }
  destruct L as [g L]. split.
  - unfold ids_ok. cbn [dk_slides dk_made]. rewrite slides_of_app, slides_of_slide. cbn [slides_of flat_map].
    assert (B : Forall (fun s => (so_id s < dk_made d)%nat) (slides_of l)).
    { rewrite L. apply Forall_forall. intros s Hs. apply filter_In in Hs. rewrite Forall_forall in I2.
      apply I2. tauto. }
    split.
    + rewrite map_app. cbn [map so_id]. apply NoDup_snoc.
      * rewrite L. now apply NoDup_filter_map.
      * intro X. apply in_map_iff in X. destruct X as [s [Es Hs]]. rewrite Forall_forall in B.
        apply B in Hs. lia.
    + apply Forall_app. split.
      * eapply Forall_impl; [|exact B]. cbn. intros. lia.
      * constructor; [cbn; lia|constructor].
  - unfold distinct_names. cbn [dk_policy dk_slides]. intros P. rewrite names_app, names_slide.
    cbn [so_name]. assert (N0 := Hn P).
    destruct (dk_policy d) eqn:Pd; [| congruence |]; destruct n as [|m|k]; try contradiction.
    + subst. cbn [names slides_of flat_map]. now rewrite app_nil_r.
    + destruct Sp as [-> Hm]. cbn [names slides_of flat_map]. now apply NoDup_snoc.
    + subst. cbn [names slides_of flat_map]. rewrite names_filter. apply NoDup_snoc.
      * now apply NoDup_filter.
      * intro X. apply filter_In in X. destruct X as [_ X]. rewrite str_eqb_refl in X. discriminate.
Qed.

Lemma new_slide_err : forall d n v d' e, new_slide d n v = (d', Err e) -> d' = d.
Proof.
  intros d n v d' e H. unfold new_slide in H. destruct (view_ok v); [|congruence].
  destruct (apply_name_policy (dk_policy d) (dk_slides d) n); congruence.
Qed.

Lemma step_inv : forall d c, ids_ok d -> distinct_names d ->
  ids_ok (fst (dstep d c)) /\ distinct_names (fst (dstep d c)) /\
  dk_policy (fst (dstep d c)) = dk_policy d.
Proof.
  intros d [n v|f] Hi Hn.
  - cbn [dstep]. destruct (new_slide d n v) as [d' [s|e]] eqn:E; cbn [fst].
    + assert (Sp := new_slide_spec d n v d' s Hi Hn E). destruct (new_slide_inv d n v d' s Hi Hn E).
      split; [auto|split; [auto|]]. destruct Sp as [l [-> _]]. reflexivity.
    + apply new_slide_err in E. now subst.
  - cbn [dstep fst add_pdf]. unfold ids_ok, distinct_names, add_pdf. cbn [dk_slides dk_made dk_policy].
    rewrite slides_of_app, names_app. cbn [slides_of names flat_map]. rewrite !app_nil_r.
    split; [exact Hi|]. split; [exact Hn|reflexivity].
Qed.
Lemma empty_ok : forall p, ids_ok (empty p) /\ distinct_names (empty p).
Proof. intro p. split; [split; [apply NoDup_nil|constructor]|intros _; apply NoDup_nil]. Qed.
Lemma run_inv : forall cs d, ids_ok d -> distinct_names d ->
  ids_ok (drun d cs) /\ distinct_names (drun d cs) /\ dk_policy (drun d cs) = dk_policy d.
Proof.
  induction cs as [|c cs IH]; intros d Hi Hn; [auto|].
  cbn [drun]. destruct (step_inv d c Hi Hn) as [H1 [H2 H3]].
  destruct (IH (fst (dstep d c)) H1 H2) as [H4 [H5 H6]]. split; [auto|split; [auto|congruence]].
Qed.
