(** Lemmas about the string built-ins of Py.v. *)
From Coq Require Import List ZArith NArith Bool String Lia.
From Verif Require Import Py.
Import ListNotations.

Lemma str_eqb_eq : forall a b, str_eqb a b = true <-> a = b.
Proof.
  induction a as [|x a IH]; destruct b as [|y b]; simpl; split; intro H;
    try reflexivity; try discriminate.
  - apply andb_true_iff in H. destruct H as [H1 H2].
    apply N.eqb_eq in H1. apply IH in H2. congruence.
  - inversion H; subst. rewrite N.eqb_refl. simpl. now apply IH.
Qed.

Lemma str_eqb_refl : forall a, str_eqb a a = true.
Proof. intro a. now apply str_eqb_eq. Qed.

Lemma is_space_In : forall c, is_space c = true <-> In c ws_table.
Proof.
  intro c. unfold is_space. rewrite existsb_exists. split.
  - intros [x [Hx He]]. apply N.eqb_eq in He. now subst.
  - intro H. exists c. split; auto. apply N.eqb_refl.
Qed.

(** A whitespace character is not a digit; by inspection of the table. *)
Lemma space_not_digit : forall c, is_space c = true -> is_digit c = false.
Proof.
  intros c H. apply is_space_In in H.
  assert (HF : forallb (fun c => negb (is_digit c)) ws_table = true)
    by (vm_compute; reflexivity).
  rewrite forallb_forall in HF. specialize (HF c H).
  now apply negb_true_iff in HF.
Qed.

Lemma digit_not_space : forall c, is_digit c = true -> is_space c = false.
Proof.
  intros c H. destruct (is_space c) eqn:E; auto.
  apply space_not_digit in E. congruence.
Qed.

(** ** span *)
Lemma span_app : forall f s a b, span f s = (a, b) -> s = a ++ b.
Proof.
  induction s as [|c s IH]; simpl; intros a b H.
  - now inversion H.
  - destruct (f c) eqn:E.
    + destruct (span f s) as [a' b'] eqn:Es. inversion H; subst.
      simpl. now rewrite (IH a' b).
    + now inversion H.
Qed.

Lemma span_all : forall f s a b, span f s = (a, b) -> Forall (fun c => f c = true) a.
Proof.
  induction s as [|c s IH]; simpl; intros a b H.
  - inversion H. constructor.
  - destruct (f c) eqn:E.
    + destruct (span f s) as [a' b'] eqn:Es. inversion H; subst.
      constructor; auto. now apply (IH a' b).
    + inversion H. constructor.
Qed.

Lemma span_stop : forall f s a b, span f s = (a, b) ->
  b = [] \/ exists c b', b = c :: b' /\ f c = false.
Proof.
  induction s as [|c s IH]; simpl; intros a b H.
  - inversion H. now left.
  - destruct (f c) eqn:E.
    + destruct (span f s) as [a' b'] eqn:Es. inversion H; subst.
      now apply (IH a' b).
    + inversion H; subst. right. now exists c, s.
Qed.

Lemma span_exact : forall f a b, Forall (fun c => f c = true) a ->
  (b = [] \/ exists c b', b = c :: b' /\ f c = false) ->
  span f (a ++ b) = (a, b).
Proof.
  induction a as [|c a IH]; intros b Ha Hb.
  - simpl. destruct Hb as [->|[c [b' [-> Hc]]]]; simpl; auto. now rewrite Hc.
  - inversion Ha; subst. simpl. rewrite H1. now rewrite (IH b).
Qed.

(** ** strip *)
Lemma lstrip_spec : forall s, exists l, s = l ++ lstrip s /\
  Forall (fun c => is_space c = true) l /\
  (lstrip s = [] \/ exists c t, lstrip s = c :: t /\ is_space c = false).
Proof.
  intro s. unfold lstrip. destruct (span is_space s) as [a b] eqn:E. simpl.
  exists a. repeat split.
  - now apply span_app in E.
  - now apply span_all in E.
  - now apply span_stop in E.
Qed.

Lemma lstrip_exact : forall l t, Forall (fun c => is_space c = true) l ->
  (t = [] \/ exists c t', t = c :: t' /\ is_space c = false) ->
  lstrip (l ++ t) = t.
Proof.
  intros l t Hl Ht. unfold lstrip. now rewrite (span_exact is_space l t).
Qed.

(** [s] neither starts nor ends with white space. *)
Definition stripped (s : str) : Prop :=
  (s = [] \/ exists c t, s = c :: t /\ is_space c = false) /\
  (s = [] \/ exists t c, s = t ++ [c] /\ is_space c = false).

Lemma rstrip_spec : forall s, exists r, s = rstrip s ++ r /\
  Forall (fun c => is_space c = true) r /\
  (rstrip s = [] \/ exists t c, rstrip s = t ++ [c] /\ is_space c = false).
Proof.
  intro s. unfold rstrip. destruct (lstrip_spec (rev s)) as [l [H1 [H2 H3]]].
  exists (rev l). repeat split.
  - rewrite <- rev_app_distr, <- H1. now rewrite rev_involutive.
  - apply Forall_rev. exact H2.
  - destruct H3 as [->|[c [t [-> Hc]]]].
    + now left.
    + right. simpl. now exists (rev t), c.
Qed.

Lemma rstrip_exact : forall t r, Forall (fun c => is_space c = true) r ->
  (t = [] \/ exists t' c, t = t' ++ [c] /\ is_space c = false) ->
  rstrip (t ++ r) = t.
Proof.
  intros t r Hr Ht. unfold rstrip. rewrite rev_app_distr.
  rewrite lstrip_exact.
  - apply rev_involutive.
  - now apply Forall_rev.
  - destruct Ht as [->|[t' [c [-> Hc]]]].
    + now left.
    + right. rewrite rev_app_distr. simpl. now exists c, (rev t').
Qed.

Lemma strip_spec : forall s, exists l r, s = l ++ strip s ++ r /\
  Forall (fun c => is_space c = true) l /\ Forall (fun c => is_space c = true) r /\
  stripped (strip s).
Proof.
  intro s. unfold strip.
  destruct (lstrip_spec s) as [l [H1 [H2 H3]]].
  destruct (rstrip_spec (lstrip s)) as [r [H4 [H5 H6]]].
  exists l, r. repeat split; auto.
  - now rewrite <- H4.
  - destruct (rstrip (lstrip s)) as [|x q] eqn:Eq; [now left|].
    right. destruct H3 as [H3|[c [t [H3 Hc]]]].
    + rewrite H3 in H4. discriminate.
    + rewrite H3 in H4. simpl in H4. inversion H4; subst. now exists x, q.
Qed.

Lemma strip_exact : forall l t r, Forall (fun c => is_space c = true) l ->
  Forall (fun c => is_space c = true) r -> stripped t -> strip (l ++ t ++ r) = t.
Proof.
  intros l t r Hl Hr [H1 H2]. unfold strip.
  destruct t as [|x t'].
  - simpl. replace (l ++ r) with ((l ++ r) ++ []) by apply app_nil_r.
    rewrite lstrip_exact; auto. now apply Forall_app.
  - rewrite lstrip_exact; auto.
    + now apply rstrip_exact.
    + right. destruct H1 as [H1|[c [t [H1 Hc]]]]; [discriminate|].
      inversion H1; subst. now exists c, (t ++ r).
Qed.

(** ** split / join *)
Lemma split_on_not_nil : forall c s, split_on c s <> [].
Proof.
  intros c s. destruct s; simpl; try discriminate.
  destruct (N.eqb n c); try discriminate.
  destruct (split_on c s); discriminate.
Qed.

Lemma join_split : forall c s, join_with [c] (split_on c s) = s.
Proof.
  intros c. induction s as [|x s IH]; simpl; auto.
  destruct (N.eqb x c) eqn:E.
  - apply N.eqb_eq in E. subst.
    destruct (split_on c s) as [|l ls] eqn:Es.
    + now apply split_on_not_nil in Es.
    + change (c :: join_with [c] (l :: ls) = c :: s). now rewrite IH.
  - destruct (split_on c s) as [|l ls] eqn:Es.
    + now apply split_on_not_nil in Es.
    + rewrite <- IH. destruct ls; reflexivity.
Qed.

Lemma split_on_no_sep : forall c s, Forall (fun p => ~ In c p) (split_on c s).
Proof.
  intros c. induction s as [|x s IH]; simpl.
  - constructor; auto.
  - destruct (N.eqb x c) eqn:E.
    + constructor; auto.
    + destruct (split_on c s) as [|l ls] eqn:Es.
      * constructor; auto. intros [H|[]]. subst. now rewrite N.eqb_refl in E.
      * inversion IH; subst. constructor; auto.
        intros [H|H]; [subst; now rewrite N.eqb_refl in E | contradiction].
Qed.

Lemma split_on_single : forall c s, ~ In c s -> split_on c s = [s].
Proof.
  induction s as [|x s IH]; intros H; simpl; auto.
  destruct (N.eqb x c) eqn:E.
  - apply N.eqb_eq in E. subst. elim H. now left.
  - rewrite IH; auto. intro Hi. apply H. now right.
Qed.

Lemma split_on_app : forall c a b, ~ In c a ->
  split_on c (a ++ c :: b) = a :: split_on c b.
Proof.
  induction a as [|x a IH]; intros b H; simpl.
  - now rewrite N.eqb_refl.
  - destruct (N.eqb x c) eqn:E.
    + apply N.eqb_eq in E. subst. elim H. now left.
    + rewrite IH; auto. intro Hi. apply H. now right.
Qed.

Lemma split_join : forall c ls, ls <> [] -> Forall (fun p => ~ In c p) ls ->
  split_on c (join_with [c] ls) = ls.
Proof.
  induction ls as [|l ls IH]; intros Hn HF; [congruence|].
  inversion HF; subst. destruct ls as [|l2 ls].
  - simpl. now apply split_on_single.
  - change (join_with [c] (l :: l2 :: ls)) with (l ++ c :: join_with [c] (l2 :: ls)).
    rewrite split_on_app; auto. rewrite IH; auto. discriminate.
Qed.

(** ** prefixes *)
Lemma strip_prefix_spec : forall p s r, strip_prefix p s = Some r <-> s = p ++ r.
Proof.
  induction p as [|x p IH]; intros s r; simpl.
  - split; intro H; [inversion H | subst]; auto.
  - destruct s as [|y s].
    + split; intro H; discriminate.
    + destruct (N.eqb x y) eqn:E.
      * apply N.eqb_eq in E. subst. rewrite IH. split; intro H.
        -- now subst.
        -- now inversion H.
      * split; intro H; [discriminate|]. inversion H; subst.
        now rewrite N.eqb_refl in E.
Qed.

Lemma strip_prefix_none : forall p s, strip_prefix p s = None <-> forall r, s <> p ++ r.
Proof.
  intros p s. split.
  - intros H r Hr. apply strip_prefix_spec in Hr. congruence.
  - intros H. destruct (strip_prefix p s) as [r|] eqn:E; auto.
    apply strip_prefix_spec in E. now elim (H r).
Qed.

(** ** digits *)
Lemma digit_in_spec : forall zs c v, digit_in zs c = Some v ->
  exists z, In z zs /\ (z <= c)%N /\ (c <= z + 9)%N /\ v = Z.of_N (c - z).
Proof.
  induction zs as [|z zs IH]; intros c v H; simpl in H; [discriminate|].
  destruct (N.leb z c && N.leb c (z + 9)) eqn:E.
  - apply andb_true_iff in E. destruct E as [E1 E2].
    apply N.leb_le in E1. apply N.leb_le in E2. inversion H; subst.
    exists z. simpl. auto.
  - destruct (IH c v H) as [z' [H1 H2]]. exists z'. simpl. tauto.
Qed.

(** The blocks of digits do not overlap: the table is sorted with steps of 10. *)
Fixpoint spaced (zs : list N) : bool :=
  match zs with
  | z :: ((z' :: _) as zs') => N.leb (z + 10) z' && spaced zs'
  | _ => true
  end.

Lemma spaced_nd : spaced nd_zeros = true.
Proof. vm_compute. reflexivity. Qed.

Lemma spaced_tail : forall z zs, spaced (z :: zs) = true ->
  spaced zs = true /\ Forall (fun z' => (z + 10 <= z')%N) zs.
Proof.
  intros z zs. revert z. induction zs as [|z' zs IH]; intros z H.
  - split; auto.
  - simpl in H. apply andb_true_iff in H. destruct H as [H1 H2].
    apply N.leb_le in H1. split; auto.
    constructor; auto. destruct (IH z' H2) as [_ HF].
    eapply Forall_impl; [|exact HF]. simpl. intros. lia.
Qed.

Lemma digit_in_complete : forall zs z v, spaced zs = true -> In z zs ->
  (v <= 9)%N -> digit_in zs (z + v)%N = Some (Z.of_N v).
Proof.
  induction zs as [|z0 zs IH]; intros z v Hs Hi Hv; [destruct Hi|].
  destruct (spaced_tail _ _ Hs) as [Hs' HF]. simpl.
  destruct Hi as [->|Hi].
  - replace (N.leb z (z + v)%N) with true by (symmetry; apply N.leb_le; lia).
    replace (N.leb (z + v)%N (z + 9)%N) with true by (symmetry; apply N.leb_le; lia).
    simpl. do 2 f_equal. lia.
  - rewrite Forall_forall in HF. specialize (HF z Hi).
    replace (N.leb (z + v)%N (z0 + 9)%N) with false by (symmetry; apply N.leb_gt; lia).
    rewrite andb_false_r. now apply IH.
Qed.

Lemma digits_acc_app : forall s1 s2 a,
  digits_acc a (s1 ++ s2) = digits_acc (digits_acc a s1) s2.
Proof. induction s1; simpl; intros; auto. Qed.

Lemma split_first_spec : forall sep s a b, split_first sep s = Some (a, b) ->
  s = a ++ sep ++ b.
Proof.
  intros sep. induction s as [|c s IH]; intros a b H.
  - simpl in H. destruct (strip_prefix sep []) as [r|] eqn:E; [|discriminate].
    inversion H; subst. apply strip_prefix_spec in E. exact E.
  - simpl in H. destruct (strip_prefix sep (c :: s)) as [r|] eqn:E.
    + inversion H; subst. now apply strip_prefix_spec in E.
    + destruct (split_first sep s) as [[a' b']|] eqn:E2; [|discriminate].
      inversion H; subst. simpl. f_equal. now apply IH.
Qed.
