(** Proofs about the layout model. *)
From Coq Require Import List ZArith QArith Qfield Bool Lia Lqa Setoid.
From Verif Require Import Py PyFacts LayoutModel LayoutSpec.
Import ListNotations.
Open Scope Q_scope.

(** ** Arithmetic *)
Lemma qmax_case : forall a b, (qmax a b = a /\ b <= a) \/ (qmax a b = b /\ a < b).
Proof.
  intros a b. unfold qmax. destruct (Qle_bool b a) eqn:E.
  - left. split; auto. now apply Qle_bool_iff.
  - right. split; auto. apply Qnot_le_lt. intro H. apply Qle_bool_iff in H. congruence.
Qed.

Lemma qmin_case : forall a b, (qmin a b = a /\ a <= b) \/ (qmin a b = b /\ b < a).
Proof.
  intros a b. unfold qmin. destruct (Qle_bool a b) eqn:E.
  - left. split; auto. now apply Qle_bool_iff.
  - right. split; auto. apply Qnot_le_lt. intro H. apply Qle_bool_iff in H. congruence.
Qed.

Ltac qmax_tac a b :=
  let E := fresh "E" in let L := fresh "L" in
  destruct (qmax_case a b) as [[E L]|[E L]]; rewrite E in *.

Lemma qmax_l : forall a b, a <= qmax a b.
Proof. intros. qmax_tac a b; lra. Qed.
Lemma qmax_r : forall a b, b <= qmax a b.
Proof. intros. qmax_tac a b; lra. Qed.
Lemma qmax_lub : forall a b c, a <= c -> b <= c -> qmax a b <= c.
Proof. intros a b c. qmax_tac a b; lra. Qed.

Lemma qmax_comp : forall a a' b b', a == a' -> b == b' -> qmax a b == qmax a' b'.
Proof. intros a a' b b' Ha Hb. qmax_tac a b; qmax_tac a' b'; lra. Qed.

#[export] Instance qmax_proper : Proper (Qeq ==> Qeq ==> Qeq) qmax.
Proof. intros a a' Ha b b' Hb. now apply qmax_comp. Qed.

Lemma qmax_comm : forall a b, qmax a b == qmax b a.
Proof. intros. qmax_tac a b; qmax_tac b a; lra. Qed.

Lemma qtrue_false : forall q, qtrue q = false <-> q == 0.
Proof.
  intro q. unfold qtrue. rewrite negb_false_iff. apply Qeq_bool_iff.
Qed.
Lemma qtrue_true : forall q, qtrue q = true <-> ~ q == 0.
Proof.
  intro q. unfold qtrue. rewrite negb_true_iff. split.
  - intros H E. apply Qeq_bool_iff in E. congruence.
  - intro H. destruct (Qeq_bool q 0) eqn:E; auto. apply Qeq_bool_iff in E. contradiction.
Qed.

(** ** Induction over layout trees *)
Section LayoutInd.
  Variable P : layout -> Prop.
  Hypothesis H : forall h cs, Forall P cs -> P (Node h cs).
  Fixpoint layout_rect (l : layout) : P l :=
    match l with
    | Node h cs =>
        H h cs ((fix go (cs : list layout) : Forall P cs :=
                   match cs with
                   | [] => Forall_nil P
                   | c :: cs' => Forall_cons c (layout_rect c) (go cs')
                   end) cs)
    end.
End LayoutInd.

Definition ids_list (cs : list layout) : list nat := flat_map ids cs.
Lemma ids_node : forall h cs, ids (Node h cs) = l_id h :: ids_list cs.
Proof.
  reflexivity.
Qed.

Lemma id_in_ids : forall l, In (l_id (head l)) (ids l).
Proof. intros [h cs]. rewrite ids_node. now left. Qed.

Lemma NoDup_app_inv : forall (A : Type) (a b : list A), NoDup (a ++ b) ->
  NoDup a /\ NoDup b /\ (forall x, In x a -> ~ In x b).
Proof.
  induction a as [|x a IH]; simpl; intros b H.
  - split; [constructor|]. split; auto.
  - inversion H; subst. destruct (IH b H3) as [H4 [H5 H6]].
    split; [|split; auto].
    + constructor; auto. intro Hi. apply H2. apply in_or_app. now left.
    + intros y [->|Hy].
      * intro Hb. apply H2. apply in_or_app. now right.
      * now apply H6.
Qed.

(** ** set_rect as a loop over the children *)
Inductive places (hor : bool) (r : rect) (fu : Q)
  : list layout -> Q -> store -> list rect -> Q -> store -> Prop :=
| pl_nil : forall dd s, places hor r fu [] dd s [] dd s
| pl_cons : forall c cs dd s o dd' s1 os dd2 s2,
    child_rect hor r fu c dd s = Ok (o, dd') ->
    set_rect c o s = Ok s1 ->
    places hor r fu cs dd' s1 os dd2 s2 ->
    places hor r fu (c :: cs) dd s (o :: os) dd2 s2.

Definition content (h : lhead) (r0 : rect) : rect :=
  shrink r0 (l_left h) (l_right h) (l_top h) (l_bottom h).
Definition entered (h : lhead) (r : rect) (s : store) : store :=
  run_callbacks r (l_texts h) (upd_rect s (l_id h) r).

Lemma set_rect_inv : forall h cs r0 s s',
  set_rect (Node h cs) r0 s = Ok s' ->
  exists os dd, places (l_horizontal h) (content h r0)
    (snd (main_axis (Node h cs) (content h r0))) cs
    (fst (main_axis (Node h cs) (content h r0)))
    (entered h (content h r0) s) os dd s'.
Proof.
  intros h cs r0 s s' H. cbn [set_rect] in H.
  fold (content h r0) in H. fold (entered h (content h r0) s) in H.
  destruct (main_axis (Node h cs) (content h r0)) as [dd0 fu]. simpl.
  set (r := content h r0) in *. clearbody r.
  set (s1 := entered h r s) in *. clearbody s1. clear s r0.
  revert dd0 s1 H. induction cs as [|c cs IH]; intros dd0 s1 H.
  - inversion H; subst. exists [], dd0. constructor.
  - destruct (child_rect (l_horizontal h) r fu c dd0 s1) as [[o dd']|] eqn:E1;
      [|discriminate].
    simpl in H. destruct (set_rect c o s1) as [s2|] eqn:E2; [|discriminate].
    simpl in H. destruct (IH _ _ H) as [os [dd2 Hp]].
    exists (o :: os), dd2. econstructor; eauto.
Qed.

Lemma set_rect_intro : forall h cs r0 s os dd s',
  places (l_horizontal h) (content h r0)
    (snd (main_axis (Node h cs) (content h r0))) cs
    (fst (main_axis (Node h cs) (content h r0)))
    (entered h (content h r0) s) os dd s' ->
  set_rect (Node h cs) r0 s = Ok s'.
Proof.
  intros h cs r0 s os dd s' H. cbn [set_rect].
  fold (content h r0). fold (entered h (content h r0) s).
  destruct (main_axis (Node h cs) (content h r0)) as [dd0 fu]. simpl in H.
  set (r := content h r0) in *. clearbody r.
  set (s1 := entered h r s) in *. clearbody s1.
  induction H as [dd s2 | c cs dd s2 o dd' s3 os dd2 s4 H1 H2 H3 IH]; auto.
  rewrite H1. simpl. rewrite H2. simpl. exact IH.
Qed.

(** ** Which rectangles a run writes *)
Lemma run_callbacks_rect : forall r ts s, st_rect (run_callbacks r ts s) = st_rect s.
Proof.
  unfold run_callbacks. induction ts as [|t ts IH]; intros s; simpl; auto.
  now rewrite IH.
Qed.

Lemma entered_rect : forall h r s i,
  st_rect (entered h r s) i = if Nat.eqb i (l_id h) then Some r else st_rect s i.
Proof.
  intros. unfold entered. rewrite run_callbacks_rect. reflexivity.
Qed.

Lemma set_rect_frame : forall l r s s', set_rect l r s = Ok s' ->
  forall i, ~ In i (ids l) -> st_rect s' i = st_rect s i.
Proof.
  induction l as [h cs IH] using layout_rect. intros r s s' H i Hi.
  rewrite ids_node in Hi. apply set_rect_inv in H. destruct H as [os [dd H]].
  assert (He : st_rect (entered h (content h r) s) i = st_rect s i).
  { rewrite entered_rect. destruct (Nat.eqb i (l_id h)) eqn:E; auto.
    apply Nat.eqb_eq in E. subst. elim Hi. now left. }
  rewrite <- He. assert (Hi' : ~ In i (ids_list cs)) by (intro; apply Hi; now right).
  clear Hi He.
  revert H. generalize (content h r), (snd (main_axis (Node h cs) (content h r))),
    (fst (main_axis (Node h cs) (content h r))), (entered h (content h r) s).
  intros R fu dd0 s0 H.
  induction H as [|c cs' dd1 s1 o dd' s2 os dd2 s3 H1 H2 H3 IH2]; auto.
  inversion IH; subst. unfold ids_list in Hi'. simpl in Hi'. rewrite IH2; auto.
  - eapply H4; eauto. intro. apply Hi'. apply in_or_app. now left.
  - intro. apply Hi'. apply in_or_app. now right.
Qed.

Lemma places_frame : forall hor r fu cs dd s os dd' s',
  places hor r fu cs dd s os dd' s' ->
  forall i, ~ In i (ids_list cs) -> st_rect s' i = st_rect s i.
Proof.
  induction 1 as [|c cs dd s o dd' s1 os dd2 s2 H1 H2 H3 IH]; intros i Hi; auto.
  unfold ids_list in Hi. simpl in Hi. rewrite IH.
  - eapply set_rect_frame; eauto. intro. apply Hi. apply in_or_app. now left.
  - intro. apply Hi. apply in_or_app. now right.
Qed.

Lemma set_rect_self : forall l r s s', NoDup (ids l) -> set_rect l r s = Ok s' ->
  area l s' = Some (content (head l) r).
Proof.
  intros [h cs] r s s' Hn H. rewrite ids_node in Hn. inversion Hn; subst.
  apply set_rect_inv in H. destruct H as [os [dd H]]. unfold area. simpl.
  rewrite (places_frame _ _ _ _ _ _ _ _ _ H) by auto.
  rewrite entered_rect, Nat.eqb_refl. reflexivity.
Qed.

Lemma grow_content : forall l r, req (grow l (content (head l) r)) r.
Proof.
  intros l r. unfold req, grow, content, shrink. simpl.
  repeat split; ring.
Qed.

(** ** Size requests *)
Definition requests (hor : bool) (cs : list layout) : list (size_value * size_value) :=
  map size_request (filter (is_managed hor) cs).

Lemma size_request_eq : forall h cs, size_request (Node h cs) =
  let (mx, my) := min_children_size (l_horizontal h) (requests (l_horizontal h) cs) in
  (ensure (l_width h) (mx + (l_left h + l_right h)),
   ensure (l_height h) (my + (l_top h + l_bottom h))).
Proof.
  intros h cs. cbn [size_request].
  match goal with |- context [min_children_size _ ?t] =>
    replace t with (requests (l_horizontal h) cs) end; auto.
  unfold requests. induction cs as [|c cs IH]; simpl; auto.
  destruct (is_managed (l_horizontal h) c); simpl; now rewrite IH.
Qed.

Lemma ensure_fields : forall v q,
  sv_ratio (ensure v q) = sv_ratio v /\ sv_fill (ensure v q) = sv_fill v /\
  sv_lazy (ensure v q) = sv_lazy v.
Proof. intros v q. unfold ensure. destruct (Qle_bool q (sv_min v)); auto. Qed.

Lemma ensure_min : forall v q, sv_min (ensure v q) = qmax (sv_min v) q.
Proof.
  intros v q. unfold ensure, qmax. destruct (Qle_bool q (sv_min v)); auto.
Qed.

Definition rq (a : axis) (l : layout) : size_value :=
  match a with X => fst (size_request l) | Y => snd (size_request l) end.

Lemma rq_fields : forall a l,
  sv_ratio (rq a l) = sv_ratio (size_arg a l) /\ sv_fill (rq a l) = sv_fill (size_arg a l) /\
  sv_lazy (rq a l) = sv_lazy (size_arg a l).
Proof.
  intros a [h cs]. unfold rq, size_arg. rewrite size_request_eq.
  destruct (min_children_size _ _) as [mx my]. destruct a; apply ensure_fields.
Qed.

Lemma fold_left_Qplus : forall l a, fold_left Qplus l a == a + fold_right Qplus 0 l.
Proof.
  induction l as [|q l IH]; intros a; simpl; [ring|]. rewrite IH. ring.
Qed.

Lemma fold_left_qmax_ge : forall l a, a <= fold_left qmax l a /\
  (forall x, In x l -> x <= fold_left qmax l a) /\
  (fold_left qmax l a == a \/ exists x, In x l /\ fold_left qmax l a == x).
Proof.
  induction l as [|q l IH]; intros a; simpl.
  - repeat split; try lra. tauto.
  - destruct (IH (qmax a q)) as [H1 [H2 H3]].
    assert (A := qmax_l a q). assert (B := qmax_r a q). repeat split.
    + lra.
    + intros x [->|Hx]; [lra | auto].
    + destruct H3 as [H3|[x [Hx H3]]].
      * qmax_tac a q; [left; lra | right; exists q; split; [now left|lra]].
      * right. exists x. auto.
Qed.

Lemma fold_right_qmax_ge : forall l a, a <= fold_right qmax a l /\
  (forall x, In x l -> x <= fold_right qmax a l) /\
  (fold_right qmax a l == a \/ exists x, In x l /\ fold_right qmax a l == x).
Proof.
  induction l as [|q l IH]; intros a; simpl.
  - repeat split; try lra. tauto.
  - destruct (IH a) as [H1 [H2 H3]].
    assert (A := qmax_l q (fold_right qmax a l)).
    assert (B := qmax_r q (fold_right qmax a l)). repeat split.
    + lra.
    + intros x [->|Hx]; [lra | specialize (H2 x Hx); lra].
    + qmax_tac q (fold_right qmax a l).
      * right. exists q. split; [now left | lra].
      * destruct H3 as [H3|[x [Hx H3]]]; [now left|]. right. exists x. auto.
Qed.

Lemma fold_qmax_lr : forall l a, fold_left qmax l a == fold_right qmax a l.
Proof.
  intros l a. destruct (fold_left_qmax_ge l a) as [A1 [A2 A3]].
  destruct (fold_right_qmax_ge l a) as [B1 [B2 B3]].
  apply Qle_antisym.
  - destruct A3 as [->|[x [Hx ->]]]; auto.
  - destruct B3 as [->|[x [Hx ->]]]; auto.
Qed.

(** [demand] computed from the list of stacked children. *)
Definition along (a : axis) (hor : bool) : bool :=
  match a, hor with X, true | Y, false => true | _, _ => false end.
Definition content_demand (a : axis) (hor : bool) (ds : list Q) : Q :=
  if along a hor then fold_right Qplus 0 ds
  else match ds with [] => 0 | d :: ds' => fold_right qmax d ds' end.

Lemma stacked_managed : forall h cs,
  stacked (Node h cs) = filter (is_managed (l_horizontal h)) cs.
Proof.
  intros h cs. unfold stacked, stack_axis, is_managed, pos_arg. simpl.
  apply filter_ext. intro c. destruct (l_horizontal h); reflexivity.
Qed.

Lemma demand_eq : forall a h cs, demand a (Node h cs) =
  qmax (sv_min (size_arg a (Node h cs)))
       (content_demand a (l_horizontal h) (map (demand a) (stacked (Node h cs)))
        + pad a (Node h cs)).
Proof.
  intros a h cs. cbn [demand].
  match goal with |- qmax _ (?t + _) = qmax _ (?u + _) => replace t with u; auto end.
  rewrite stacked_managed.
  match goal with |- context [fold_right Qplus 0 ?t] =>
    replace t with (map (demand a) (filter (is_managed (l_horizontal h)) cs)) end.
  - unfold content_demand, along. destruct a, (l_horizontal h); reflexivity.
  - unfold is_managed, pos_arg. induction cs as [|c cs IH]; simpl; auto.
    destruct (l_horizontal h).
    + destruct (l_x (head c)); simpl; now rewrite IH.
    + destruct (l_y (head c)); simpl; now rewrite IH.
Qed.

Lemma Forall2_map_eq : forall (A : Type) (f g : A -> Q) l,
  Forall (fun x => f x == g x) l -> Forall2 Qeq (map f l) (map g l).
Proof. induction 1; simpl; constructor; auto. Qed.

Lemma fold_plus_eq : forall l l', Forall2 Qeq l l' ->
  fold_right Qplus 0 l == fold_right Qplus 0 l'.
Proof. induction 1; simpl; [lra|]. now rewrite H, IHForall2. Qed.

Lemma fold_qmax_eq : forall l l' a a', Forall2 Qeq l l' -> a == a' ->
  fold_right qmax a l == fold_right qmax a' l'.
Proof. induction 1; simpl; intros; auto. apply qmax_comp; auto. Qed.

(** The request computed by the code is the demand of the specification. *)
Lemma rq_demand : forall a l, sv_min (rq a l) == demand a l.
Proof.
  intros a l. revert a. induction l as [h cs IH] using layout_rect. intros a.
  rewrite demand_eq. unfold rq. rewrite size_request_eq.
  rewrite stacked_managed. unfold requests.
  set (ms := filter (is_managed (l_horizontal h)) cs).
  assert (HF : Forall (fun c => forall a, sv_min (rq a c) == demand a c) ms).
  { unfold ms. clear ms. induction IH as [|c cs Hc HF IH']; simpl; [constructor|].
    destruct (is_managed (l_horizontal h) c); auto. }
  clearbody ms. clear IH.
  assert (HQ : forall a, Forall2 Qeq (map (fun c => sv_min (rq a c)) ms)
                                 (map (demand a) ms)).
  { intro b. apply Forall2_map_eq. eapply Forall_impl; [|exact HF]. simpl. auto. }
  assert (HX := HQ X). assert (HY := HQ Y).
  assert (E1 : map (fun c => sv_min (rq X c)) ms =
               map (fun rq => sv_min (fst rq)) (map size_request ms))
    by (rewrite map_map; reflexivity).
  assert (E2 : map (fun c => sv_min (rq Y c)) ms =
               map (fun rq => sv_min (snd rq)) (map size_request ms))
    by (rewrite map_map; reflexivity).
  rewrite E1 in HX. rewrite E2 in HY.
  destruct ms as [|c ms].
  - simpl. destruct a; simpl; rewrite ensure_min; unfold content_demand, pad; simpl;
      destruct (l_horizontal h); reflexivity.
  - assert (Hmax : forall l l', Forall2 Qeq l l' ->
              max_list l == match l' with [] => 0 | d :: ds' => fold_right qmax d ds' end).
    { intros l l' H. destruct H as [|x y l l' Hx H]; simpl; [lra|].
      rewrite fold_qmax_lr. now apply fold_qmax_eq. }
    assert (Hsum : forall l l', Forall2 Qeq l l' -> sum_list l == fold_right Qplus 0 l').
    { intros l l' H. unfold sum_list. rewrite fold_left_Qplus.
      rewrite (fold_plus_eq _ _ H). ring. }
    unfold min_children_size.
    destruct (map size_request (c :: ms)) eqn:Em; [discriminate|]. rewrite <- Em in *.
    clear Em p l.
    destruct (l_horizontal h) eqn:Eh; destruct a; cbn [fst snd];
      rewrite ensure_min; apply qmax_comp; try reflexivity;
      unfold pad; cbn [pad_before pad_after head]; apply Qplus_comp; try reflexivity;
      unfold content_demand, along.
    + now apply Hsum.
    + now apply Hmax.
    + now apply Hmax.
    + now apply Hsum.
Qed.

(** ** What child_rect computes *)
Definition fill_for (a : axis) (hor : bool) (fu : Q) : option Q :=
  if along a hor then Some fu else None.

Lemma child_rect_inv : forall hor r fu c dd s o dd',
  child_rect hor r fu c dd s = Ok (o, dd') ->
  (forall a, size_compute (rq a c) (extent a r) (fill_for a hor fu) s = Ok (extent a o)) /\
  (forall a, match pos_arg a c with
             | Some p =>
                 pos_compute p (start a r)
                   (if hor then rw r else extent a r) (extent a o) s = Ok (start a o)
             | None => if along a hor then start a o = dd
                       else start a o = start a r + (extent a r - extent a o) / 2
             end) /\
  dd' = (match pos_arg (if hor then X else Y) c with
         | None => dd + extent (if hor then X else Y) o
         | Some _ => dd
         end).
Proof.
  intros hor r fu c dd s o dd' H. unfold child_rect in H.
  assert (E : size_request c = (rq X c, rq Y c)) by apply surjective_pairing.
  rewrite E in H. unfold pos_arg. destruct hor; cbn [negb rbind] in H.
  - destruct (size_compute (rq X c) (rw r) (Some fu) s) as [w|] eqn:Ew; [|discriminate].
    cbn [negb rbind] in H.
    destruct (size_compute (rq Y c) (rh r) None s) as [h|] eqn:Ehh; [|discriminate].
    cbn [negb rbind] in H.
    destruct (l_y (head c)) as [p|] eqn:Ey.
    + destruct (pos_compute p (ry r) (rw r) h s) as [y|] eqn:Ep; [|discriminate].
      cbn [negb rbind] in H. destruct (l_x (head c)) as [p'|] eqn:Ex.
      * destruct (pos_compute p' (rx r) (rw r) w s) as [x|] eqn:Ep'; [|discriminate].
        cbn [negb rbind] in H. inversion H; subst. simpl.
        repeat split; intros []; simpl; rewrite ?Ex, ?Ey; auto.
      * inversion H; subst. simpl.
        repeat split; intros []; simpl; rewrite ?Ex, ?Ey; auto.
    + cbn [negb rbind] in H. destruct (l_x (head c)) as [p'|] eqn:Ex.
      * destruct (pos_compute p' (rx r) (rw r) w s) as [x|] eqn:Ep'; [|discriminate].
        cbn [negb rbind] in H. inversion H; subst. simpl.
        repeat split; intros []; simpl; rewrite ?Ex, ?Ey; auto.
      * inversion H; subst. simpl.
        repeat split; intros []; simpl; rewrite ?Ex, ?Ey; auto.
  - destruct (size_compute (rq X c) (rw r) None s) as [w|] eqn:Ew; [|discriminate].
    cbn [negb rbind] in H.
    destruct (size_compute (rq Y c) (rh r) (Some fu) s) as [h|] eqn:Ehh; [|discriminate].
    cbn [negb rbind] in H.
    destruct (l_x (head c)) as [p|] eqn:Ex.
    + destruct (pos_compute p (rx r) (rw r) w s) as [x|] eqn:Ep; [|discriminate].
      cbn [negb rbind] in H. destruct (l_y (head c)) as [p'|] eqn:Ey.
      * destruct (pos_compute p' (ry r) (rh r) h s) as [y|] eqn:Ep'; [|discriminate].
        cbn [negb rbind] in H. inversion H; subst. simpl.
        repeat split; intros []; simpl; rewrite ?Ex, ?Ey; auto.
      * inversion H; subst. simpl.
        repeat split; intros []; simpl; rewrite ?Ex, ?Ey; auto.
    + cbn [negb rbind] in H. destruct (l_y (head c)) as [p'|] eqn:Ey.
      * destruct (pos_compute p' (ry r) (rh r) h s) as [y|] eqn:Ep'; [|discriminate].
        cbn [negb rbind] in H. inversion H; subst. simpl.
        repeat split; intros []; simpl; rewrite ?Ex, ?Ey; auto.
      * inversion H; subst. simpl.
        repeat split; intros []; simpl; rewrite ?Ex, ?Ey; auto.
Qed.

(** ** Stacking *)
Definition fits (a : axis) (full : Q) (c : layout) : Q :=
  match ratio_true (rq a c) with
  | Some q => qmax (full * q) (sv_min (rq a c))
  | None => sv_min (rq a c)
  end.

Definition main (hor : bool) : axis := if hor then X else Y.

Lemma along_main : forall hor, along (main hor) hor = true.
Proof. destruct hor; reflexivity. Qed.

Lemma size_compute_static : forall a c full fu s q,
  is_lazy (size_arg a c) = false ->
  size_compute (rq a c) full fu s = Ok q ->
  q = (if is_fill (size_arg a c) then
         match fu with Some u => u * inject_Z (sv_fill (size_arg a c)) | None => full end
       else fits a full c).
Proof.
  intros a c full fu s q Hl H. destruct (rq_fields a c) as [H1 [H2 H3]].
  unfold size_compute in H. unfold is_lazy in Hl. rewrite H3 in H.
  destruct (sv_lazy (size_arg a c)); [discriminate|].
  unfold is_fill, fits. rewrite H2 in H.
  destruct (negb (sv_fill (size_arg a c) =? 0)%Z).
  - destruct fu; now inversion H.
  - destruct (ratio_true (rq a c)); now inversion H.
Qed.

Fixpoint fill_sum (a : axis) (cs : list layout) : Z :=
  match cs with
  | [] => 0%Z
  | c :: cs' => (sv_fill (size_arg a c) + fill_sum a cs')%Z
  end.
Fixpoint fixed_sum (a : axis) (full : Q) (cs : list layout) : Q :=
  match cs with
  | [] => 0
  | c :: cs' => (if is_fill (size_arg a c) then 0 else fits a full c) + fixed_sum a full cs'
  end.

Lemma account_fold : forall (hor : bool) full cs F0 free0, exists free,
  fold_left (account (if hor then fst else snd) full) cs (F0, free0) =
    ((F0 + fill_sum (main hor) cs)%Z, free) /\
  free == free0 - fixed_sum (main hor) full cs.
Proof.
  intros hor full. induction cs as [|c cs IH]; intros F0 free0.
  - exists free0. simpl. split; [now rewrite Z.add_0_r | lra].
  - cbn [fold_left]. unfold account at 2.
    assert (Erq : (if hor then @fst size_value size_value else @snd _ _) (size_request c) = rq (main hor) c)
      by (destruct hor; reflexivity).
    rewrite Erq. clear Erq.
    destruct (rq_fields (main hor) c) as [H1 [H2 H3]]. rewrite H2.
    cbn [fill_sum fixed_sum]. fold (is_fill (size_arg (main hor) c)).
    destruct (is_fill (size_arg (main hor) c)) eqn:Ef.
    + destruct (IH (F0 + sv_fill (size_arg (main hor) c))%Z free0) as [free [E1 E2]].
      exists free. rewrite E1. split; [f_equal; lia | lra].
    + assert (Ez : sv_fill (size_arg (main hor) c) = 0%Z).
      { unfold is_fill in Ef. apply negb_false_iff in Ef. now apply Z.eqb_eq. }
      rewrite Ez. unfold fits.
      destruct (ratio_true (rq (main hor) c)) as [q|] eqn:Er.
      * destruct (IH F0 (free0 - qmax (sv_min (rq (main hor) c)) (q * full)))
          as [free [E1 E2]].
        exists free. rewrite E1. split; [f_equal; lia|].
        rewrite E2. rewrite (qmax_comm (full * q)).
        rewrite (qmax_comp _ (sv_min (rq (main hor) c)) (full * q) (q * full));
          [lra | reflexivity | ring].
      * destruct (IH F0 (free0 - sv_min (rq (main hor) c))) as [free [E1 E2]].
        exists free. rewrite E1. split; [f_equal; lia | lra].
Qed.

(** The rectangles given to the children [cs], each computed in some store satisfying
    [E]. *)
Inductive chain (E : store -> Prop) (hor : bool) (r : rect) (fu : Q)
  : list layout -> Q -> list rect -> Q -> Prop :=
| ch_nil : forall dd, chain E hor r fu [] dd [] dd
| ch_cons : forall c cs dd st o dd' os dd2,
    E st -> child_rect hor r fu c dd st = Ok (o, dd') ->
    chain E hor r fu cs dd' os dd2 ->
    chain E hor r fu (c :: cs) dd (o :: os) dd2.

Definition stacked_of (hor : bool) (cos : list (layout * rect)) : list (layout * rect) :=
  filter (fun p => is_managed hor (fst p)) cos.

Lemma chain_tiles : forall E hor r fu cs dd os dd',
  chain E hor r fu cs dd os dd' ->
  tiles (main hor) (map snd (stacked_of hor (combine cs os))) dd dd'.
Proof.
  induction 1 as [dd|c cs dd st o dd' os dd2 HE H1 H3 IH]; simpl; [lra|].
  apply child_rect_inv in H1. destruct H1 as [_ [Hp Hd]].
  specialize (Hp (main hor)). unfold is_managed at 1.
  rewrite along_main in Hp. unfold main, pos_arg in *. simpl.
  destruct hor.
  - destruct (l_x (head c)); subst dd'; auto. simpl. split.
    + simpl in Hp. now rewrite Hp.
    + unfold stop. simpl. simpl in Hp. rewrite Hp. exact IH.
  - destruct (l_y (head c)); subst dd'; auto. simpl. split.
    + simpl in Hp. now rewrite Hp.
    + unfold stop. simpl. simpl in Hp. rewrite Hp. exact IH.
Qed.

Lemma tiles_sum : forall a rs p q, tiles a rs p q ->
  q == p + fold_right Qplus 0 (map (extent a) rs).
Proof.
  induction rs as [|r rs IH]; simpl; intros p q H; [lra|].
  destruct H as [H1 H2]. apply IH in H2. unfold stop in H2. lra.
Qed.

Lemma tiles_comp : forall a rs p q p' q', p == p' -> q == q' -> tiles a rs p q ->
  tiles a rs p' q'.
Proof.
  induction rs as [|r rs IH]; simpl; intros p q p' q' Hp Hq H; [lra|].
  destruct H as [H1 H2]. split; [lra|]. eapply IH; [reflexivity | exact Hq | exact H2].
Qed.

(** Every placed child knows its size along an axis. *)
Lemma chain_sizes : forall E hor r fu cs dd os dd',
  chain E hor r fu cs dd os dd' ->
  forall a, Forall2 (fun c o => is_lazy (size_arg a c) = false ->
    extent a o = (if is_fill (size_arg a c) then
                    match fill_for a hor fu with
                    | Some u => u * inject_Z (sv_fill (size_arg a c))
                    | None => extent a r
                    end
                  else fits a (extent a r) c)) cs os.
Proof.
  induction 1 as [dd|c cs dd st o dd' os dd2 HE H1 H3 IH]; intros a; constructor; auto.
  intro Hl. apply child_rect_inv in H1. destruct H1 as [Hs _].
  specialize (Hs a). now apply size_compute_static in Hs.
Qed.

Lemma chain_length : forall E hor r fu cs dd os dd',
  chain E hor r fu cs dd os dd' -> length cs = length os.
Proof. induction 1; simpl; auto. Qed.

Lemma Forall2_combine : forall (A B : Type) (R : A -> B -> Prop) l l',
  Forall2 R l l' -> forall x y, In (x, y) (combine l l') -> R x y.
Proof.
  induction 1 as [|a b l l' H HF IH]; simpl; intros x y Hi; [tauto|].
  destruct Hi as [E|Hi]; [inversion E; subst; exact H | auto].
Qed.

Lemma stacked_of_fst : forall hor cs os, length cs = length os ->
  map fst (stacked_of hor (combine cs os)) = filter (is_managed hor) cs.
Proof.
  intros hor. unfold stacked_of.
  induction cs as [|c cs IH]; intros [|o os] H; simpl in *; try discriminate; auto.
  injection H as H. destruct (is_managed hor c); simpl; rewrite IH; auto.
Qed.

(** Total extent of the stacked children. *)
Lemma stacked_total : forall hor full fu cos,
  (forall c o, In (c, o) cos ->
     extent (main hor) o = (if is_fill (size_arg (main hor) c) then
                              fu * inject_Z (sv_fill (size_arg (main hor) c))
                            else fits (main hor) full c)) ->
  fold_right Qplus 0 (map (extent (main hor)) (map snd cos)) ==
  fu * inject_Z (fill_sum (main hor) (map fst cos)) + fixed_sum (main hor) full (map fst cos).
Proof.
  intros hor full fu. induction cos as [|[c o] cos IH]; intros H; simpl; [ring|].
  rewrite IH by (intros; apply H; now right).
  rewrite (H c o) by now left. rewrite inject_Z_plus.
  destruct (is_fill (size_arg (main hor) c)) eqn:Ef; [ring|].
  assert (Ez : sv_fill (size_arg (main hor) c) = 0%Z).
  { unfold is_fill in Ef. apply negb_false_iff in Ef. now apply Z.eqb_eq. }
  rewrite Ez. simpl. change (inject_Z 0) with 0. ring.
Qed.

Lemma req_start : forall a r r', req r r' -> start a r == start a r'.
Proof. intros [] r r' [H1 [H2 [H3 H4]]]; auto. Qed.
Lemma req_extent : forall a r r', req r r' -> extent a r == extent a r'.
Proof. intros [] r r' [H1 [H2 [H3 H4]]]; auto. Qed.

Lemma tiles_req : forall a rs rs', Forall2 req rs' rs -> forall p q,
  tiles a rs p q -> tiles a rs' p q.
Proof.
  induction 1 as [|r' r rs' rs H HF IH]; simpl; intros p q Ht; auto.
  destruct Ht as [H1 H2]. assert (Es := req_start a _ _ H). assert (Ee := req_extent a _ _ H).
  split; [lra|]. apply IH. eapply tiles_comp; [|reflexivity|exact H2].
  unfold stop. lra.
Qed.

Lemma fill_sum_nonneg : forall a cs, Forall (fun c => (0 <= sv_fill (size_arg a c))%Z) cs ->
  (0 <= fill_sum a cs)%Z /\
  (Exists (fun c => is_fill (size_arg a c) = true) cs -> (0 < fill_sum a cs)%Z) /\
  (Forall (fun c => is_fill (size_arg a c) = false) cs -> fill_sum a cs = 0%Z).
Proof.
  induction 1 as [|c cs Hc HF [IH1 [IH2 IH3]]]; cbn [fill_sum].
  - split; [lia|]. split; auto. intro He. inversion He.
  - split; [lia|]. split.
    + intro He. inversion He; subst.
      * unfold is_fill in H0. apply negb_true_iff in H0. apply Z.eqb_neq in H0. lia.
      * apply IH2 in H0. lia.
    + intro Hf. inversion Hf; subst. unfold is_fill in H1.
      apply negb_false_iff in H1. apply Z.eqb_eq in H1. rewrite IH3 by auto. lia.
Qed.

(** The start of the first stacked child and the fill unit. *)
Lemma main_axis_spec : forall h cs R,
  let a := main (l_horizontal h) in
  let ms := filter (is_managed (l_horizontal h)) cs in
  let F := fill_sum a ms in
  let rest := extent a R - fixed_sum a (extent a R) ms in
  fst (main_axis (Node h cs) R) == start a R + (if (F =? 0)%Z then rest / 2 else 0) /\
  ((F =? 0)%Z = false -> snd (main_axis (Node h cs) R) * inject_Z F == rest).
Proof.
  intros h cs R. cbv zeta. unfold main_axis, managed_children. cbn [head kids].
  set (hor := l_horizontal h) in *. set (ms := filter (is_managed hor) cs).
  replace (if hor then rw R else rh R) with (extent (main hor) R)
    by (destruct hor; reflexivity).
  replace (if hor then rx R else ry R) with (start (main hor) R)
    by (destruct hor; reflexivity).
  destruct (account_fold hor (extent (main hor) R) ms 0%Z (extent (main hor) R))
    as [free [E1 E2]].
  rewrite E1. rewrite Z.add_0_l.
  destruct (fill_sum (main hor) ms =? 0)%Z eqn:Ez; cbn [negb fst snd].
  - split; [|discriminate]. now rewrite E2.
  - split.
    + apply Qplus_comp; reflexivity.
    + intros _. rewrite <- E2. field.
      apply Z.eqb_neq in Ez. intro E. apply Ez.
      unfold Qeq, inject_Z in E. simpl in E. lia.
Qed.

(** ** Laid out trees *)

(** The stores in which the lazy values of the children of box [h] are evaluated: they
    already contain the area [R] of the parent. *)
Definition at_box (E : store -> Prop) (h : lhead) (R : rect) (st : store) : Prop :=
  E st /\ st_rect st (l_id h) = Some R.

(** [laid E S l r]: in the final store [S], the tree [l] occupies the allotted rectangle
    [r]; lazy values were evaluated in stores satisfying [E]. *)
Inductive laid (E : store -> Prop) (S : store) : layout -> rect -> Prop :=
| laid_node : forall h cs r0 os dd,
    st_rect S (l_id h) = Some (content h r0) ->
    chain (at_box E h (content h r0)) (l_horizontal h) (content h r0)
      (snd (main_axis (Node h cs) (content h r0))) cs
      (fst (main_axis (Node h cs) (content h r0))) os dd ->
    Forall2 (laid E S) cs os ->
    laid E S (Node h cs) r0.

Lemma laid_inv : forall E S h cs r0, laid E S (Node h cs) r0 ->
  exists os dd,
    st_rect S (l_id h) = Some (content h r0) /\
    chain (at_box E h (content h r0)) (l_horizontal h) (content h r0)
      (snd (main_axis (Node h cs) (content h r0))) cs
      (fst (main_axis (Node h cs) (content h r0))) os dd /\
    Forall2 (laid E S) cs os.
Proof. intros E S h cs r0 H. inversion H; subst. eauto. Qed.

Lemma run_callbacks_text : forall r ts s t, ~ In t ts ->
  st_text (run_callbacks r ts s) t = st_text s t.
Proof.
  unfold run_callbacks. induction ts as [|t0 ts IH]; intros s t Ht; simpl; auto.
  rewrite IH by (intro; apply Ht; now right). simpl.
  destruct (Nat.eqb t t0) eqn:E; auto. apply Nat.eqb_eq in E. subst. elim Ht. now left.
Qed.

Lemma within_trans_kid : forall c d h cs, In d cs -> within c d -> within c (Node h cs).
Proof. intros. eapply within_kid; eauto. Qed.

Lemma owned_kid : forall owner h cs c, owned owner (Node h cs) -> In c cs -> owned owner c.
Proof. intros owner h cs c H Hi d Hd. apply H. eapply within_kid; eauto. Qed.

Lemma within_ids : forall c l, within c l -> In (l_id (head c)) (ids l).
Proof.
  induction 1 as [l|c d h cs Hi Hw IH].
  - apply id_in_ids.
  - rewrite ids_node. right. unfold ids_list. apply in_flat_map. eauto.
Qed.

Lemma set_rect_text_frame : forall owner l r s s', owned owner l ->
  set_rect l r s = Ok s' ->
  forall t, ~ In (owner t) (ids l) -> st_text s' t = st_text s t.
Proof.
  intros owner. induction l as [h cs IH] using layout_rect. intros r s s' Ho H t Ht.
  rewrite ids_node in Ht. apply set_rect_inv in H. destruct H as [os [dd H]].
  assert (He : st_text (entered h (content h r) s) t = st_text s t).
  { unfold entered. rewrite run_callbacks_text; auto.
    intro Hi. apply Ht. left. symmetry. apply (Ho (Node h cs)); auto. constructor. }
  rewrite <- He. assert (Hi' : ~ In (owner t) (ids_list cs)) by (intro; apply Ht; now right).
  assert (Ho' : Forall (owned owner) cs).
  { apply Forall_forall. intros c Hc. eapply owned_kid; eauto. }
  clear Ht He Ho.
  revert H. generalize (content h r), (snd (main_axis (Node h cs) (content h r))),
    (fst (main_axis (Node h cs) (content h r))), (entered h (content h r) s).
  intros R fu dd0 s0 H.
  induction H as [|c cs' dd1 s1 o dd' s2 os dd2 s3 H1 H2 H3 IH2]; auto.
  inversion IH; subst. inversion Ho'; subst. unfold ids_list in Hi'. simpl in Hi'.
  rewrite IH2; auto.
  - eapply H4; eauto. intro. apply Hi'. apply in_or_app. now left.
  - intro. apply Hi'. apply in_or_app. now right.
Qed.

(** A run of set_rect lays the tree out, in any final store that keeps what the run
    wrote. *)
Lemma set_rect_laid : forall owner l r s s' S,
  NoDup (ids l) -> owned owner l -> set_rect l r s = Ok s' ->
  (forall i, In i (ids l) -> st_rect S i = st_rect s' i) ->
  (forall t, In (owner t) (ids l) -> st_text S t = st_text s' t) ->
  earlier owner S s ->
  laid (earlier owner S) S l r /\ earlier owner S s'.
Proof.
  intros owner. induction l as [h cs IH] using layout_rect.
  intros r s s' S Hn Ho H HR HT HE.
  assert (Hself := set_rect_self _ _ _ _ Hn H). unfold area in Hself. cbn [head] in Hself.
  apply set_rect_inv in H. destruct H as [os [dd H]].
  rewrite ids_node in *. inversion Hn as [|? ? Hni Hn']; subst.
  set (R := content h r) in *.
  assert (Hsid : st_rect S (l_id h) = Some R) by (rewrite HR; auto; now left).
  assert (Ho' : Forall (owned owner) cs).
  { apply Forall_forall. intros c Hc. eapply owned_kid; eauto. }
  (* the state when the children start *)
  assert (HE1 : earlier owner S (entered h R s)).
  { intros i q Hi. rewrite entered_rect in Hi. destruct (Nat.eqb i (l_id h)) eqn:Ei.
    - apply Nat.eqb_eq in Ei. inversion Hi; subst. split; auto.
      intros t Ht. rewrite HT by (rewrite Ht; now left). symmetry.
      (* children do not touch this text *)
      assert (Hx : forall fu cs' dd0 s0 os' dd' s'',
                places (l_horizontal h) R fu cs' dd0 s0 os' dd' s'' ->
                Forall (owned owner) cs' -> ~ In (owner t) (ids_list cs') ->
                st_text s'' t = st_text s0 t).
      { induction 1 as [|c cs' dd1 s1 o dd' s2 os' dd2 s3 H1 H2 H3 IH2]; intros HF Hno; auto.
        inversion HF; subst. unfold ids_list in Hno. simpl in Hno.
        rewrite IH2; auto; [|intro; apply Hno; apply in_or_app; now right].
        eapply set_rect_text_frame; eauto. intro. apply Hno. apply in_or_app. now left. }
      eapply Hx; eauto. now rewrite Ht.
    - destruct (HE i q Hi) as [E1 E2]. split; auto. intros t Ht.
      rewrite <- E2 by auto. unfold entered. rewrite run_callbacks_text; [reflexivity|].
      intro Hin. apply Nat.eqb_neq in Ei. apply Ei.
      rewrite <- Ht. apply (Ho (Node h cs)); auto. constructor. }
  assert (HR' : forall i, In i (ids_list cs) -> st_rect S i = st_rect s' i)
    by (intros; apply HR; now right).
  assert (HT' : forall t, In (owner t) (ids_list cs) -> st_text S t = st_text s' t)
    by (intros; apply HT; now right).
  assert (Hmain : forall fu cs' dd0 s0 os' dd' s'',
            places (l_horizontal h) R fu cs' dd0 s0 os' dd' s'' ->
            Forall (fun c => forall r s s' S, NoDup (ids c) -> owned owner c ->
               set_rect c r s = Ok s' ->
               (forall i, In i (ids c) -> st_rect S i = st_rect s' i) ->
               (forall t, In (owner t) (ids c) -> st_text S t = st_text s' t) ->
               earlier owner S s -> laid (earlier owner S) S c r /\ earlier owner S s') cs' ->
            Forall (owned owner) cs' -> NoDup (ids_list cs') ->
            (forall i, In i (ids_list cs') -> st_rect S i = st_rect s'' i) ->
            (forall t, In (owner t) (ids_list cs') -> st_text S t = st_text s'' t) ->
            earlier owner S s0 ->
            st_rect s0 (l_id h) = Some R -> ~ In (l_id h) (ids_list cs') ->
            chain (at_box (earlier owner S) h R) (l_horizontal h) R fu cs' dd0 os' dd' /\
            Forall2 (laid (earlier owner S) S) cs' os' /\ earlier owner S s'').
  { clear - owner. intros fu cs' dd0 s0 os' dd' s'' Hp.
    induction Hp as [|c cs' dd1 s1 o dd' s2 os' dd2 s3 H1 H2 H3 IH2];
      intros HI HO HN HSR HST HEE HRs HRn.
    - split; [constructor|]. split; [constructor|exact HEE].
    - inversion HI as [|? ? HIc HI']; subst. inversion HO as [|? ? HOc HO']; subst.
      unfold ids_list in HN, HSR, HST, HRn. simpl in HN, HSR, HST, HRn.
      apply NoDup_app_inv in HN. destruct HN as [HNa [HNb HNc]].
      assert (Hfr : forall t, ~ In (owner t) (ids_list cs') -> st_text s3 t = st_text s2 t).
      { clear - H3 HO'. induction H3 as [|c cs' dd1 s1 o dd' s2 os' dd2 s3 H1 H2 H3 IH2];
          intros t Ht; auto.
        inversion HO'; subst. unfold ids_list in Ht. simpl in Ht.
        rewrite IH2; auto; [|intro; apply Ht; apply in_or_app; now right].
        eapply set_rect_text_frame; eauto. intro. apply Ht. apply in_or_app. now left. }
      destruct (HIc o s1 s2 S HNa HOc H2) as [L1 L2]; auto.
      + intros i Hi. rewrite HSR by (apply in_or_app; now left).
        eapply places_frame; eauto.
      + intros t Ht. rewrite HST by (apply in_or_app; now left).
        apply Hfr. now apply HNc.
      + destruct IH2 as [C1 [C2 C3]]; auto.
        * intros i Hi. apply HSR. apply in_or_app. now right.
        * intros t Ht. apply HST. apply in_or_app. now right.
        * rewrite (set_rect_frame _ _ _ _ H2); auto. intro. apply HRn. apply in_or_app. now left.
        * intro. apply HRn. apply in_or_app. now right.
        * split; [eapply ch_cons; [split; [exact HEE | exact HRs] | exact H1 | exact C1]|].
          split; auto. }
  assert (HRent : st_rect (entered h R s) (l_id h) = Some R)
    by (rewrite entered_rect, Nat.eqb_refl; reflexivity).
  destruct (Hmain _ _ _ _ _ _ _ H IH Ho' Hn' HR' HT' HE1 HRent Hni) as [C1 [C2 C3]].
  split; auto. econstructor; eauto.
Qed.

Lemma laid_within : forall E S c l r, within c l -> laid E S l r ->
  exists r', laid E S c r'.
Proof.
  intros E S c l r Hw. revert r. induction Hw as [l|c d h cs Hi Hw IH]; intros r H; eauto.
  apply laid_inv in H. destruct H as [os [dd [_ [_ HF]]]].
  assert (exists o, laid E S d o).
  { clear - Hi HF. induction HF as [|x y l l' H HF IH]; [destruct Hi|].
    destruct Hi as [->|Hi]; eauto. }
  destruct H as [o Ho]. eauto.
Qed.

Lemma laid_outer : forall E S c o, laid E S c o -> exists o', outer c S o' /\ req o' o.
Proof.
  intros E S [h cs] o H. apply laid_inv in H. destruct H as [os [dd [H _]]].
  exists (grow (Node h cs) (content h o)). split.
  - exists (content h o). split; auto.
  - apply (grow_content (Node h cs)).
Qed.

Lemma outer_unique : forall c S o o', outer c S o -> outer c S o' -> o = o'.
Proof.
  intros c S o o' [r [H1 H2]] [r' [H3 H4]]. congruence.
Qed.

Lemma laid_outers : forall E S cos, Forall (fun p => laid E S (fst p) (snd p)) cos ->
  exists rs, Forall2 (fun c o => outer c S o) (map fst cos) rs /\
             Forall2 req rs (map snd cos).
Proof.
  induction 1 as [|[c o] cos H HF [rs [H1 H2]]].
  - exists []. split; constructor.
  - destruct (laid_outer _ _ _ _ H) as [o' [Ho Hr]]. exists (o' :: rs).
    split; simpl; constructor; auto.
Qed.

(** The heart of C10 and C11. *)
Theorem stacking : forall E l r0 S R,
  laid E S l r0 -> area l S = Some R ->
  Forall (fun c => is_lazy (size_arg (stack_axis l) c) = false) (stacked l) ->
  Forall (fun c => (0 <= sv_fill (size_arg (stack_axis l) c))%Z) (stacked l) ->
  exists rs p q unit,
    Forall2 (fun c o => outer c S o) (stacked l) rs /\
    tiles (stack_axis l) rs p q /\
    p - start (stack_axis l) R == stop (stack_axis l) R - q /\
    (Exists (fun c => is_fill (size_arg (stack_axis l) c) = true) (stacked l) ->
       p == start (stack_axis l) R) /\
    Forall2 (fun c o => is_fill (size_arg (stack_axis l) c) = true ->
       extent (stack_axis l) o == unit * inject_Z (sv_fill (size_arg (stack_axis l) c)))
      (stacked l) rs.
Proof.
  intros E [h cs] r0 S R H HR Hl Hf.
  apply laid_inv in H. destruct H as [os [dd [Hself [Hp Ha]]]].
  unfold area in HR. cbn [head] in HR. rewrite Hself in HR. injection HR as HR.
  rewrite HR in *. clear Hself HR r0.
  assert (Hlen := chain_length _ _ _ _ _ _ _ _ Hp).
  rewrite stacked_managed in *. unfold stack_axis in *. cbn [head] in *.
  fold (main (l_horizontal h)) in *.
  destruct (main_axis_spec h cs R) as [Hm1 Hm2].
  set (hor := l_horizontal h) in *.
  set (cos := stacked_of hor (combine cs os)).
  assert (Hfst : map fst cos = filter (is_managed hor) cs) by now apply stacked_of_fst.
  assert (Hal : Forall (fun p => laid E S (fst p) (snd p)) cos).
  { apply Forall_forall. intros [c o] Hi. apply filter_In in Hi.
    destruct Hi as [Hi _]. simpl. eapply Forall2_combine in Ha; eauto. }
  destruct (laid_outers _ _ _ Hal) as [rs [Hr1 Hr2]].
  assert (Ht := chain_tiles _ _ _ _ _ _ _ _ Hp). fold cos in Ht.
  set (fu := snd (main_axis (Node h cs) R)) in *.
  set (p := fst (main_axis (Node h cs) R)) in *.
  assert (Hsz : forall c o, In (c, o) cos ->
     extent (main hor) o = (if is_fill (size_arg (main hor) c) then
                              fu * inject_Z (sv_fill (size_arg (main hor) c))
                            else fits (main hor) (extent (main hor) R) c)).
  { intros c o Hi. unfold cos, stacked_of in Hi. apply filter_In in Hi.
    destruct Hi as [Hi Hm]. simpl in Hm.
    assert (Hs := chain_sizes _ _ _ _ _ _ _ _ Hp (main hor)).
    unfold fill_for in Hs. rewrite along_main in Hs.
    eapply Forall2_combine in Hs; eauto. apply Hs.
    rewrite Forall_forall in Hl. apply Hl. apply filter_In. split; auto.
    now apply in_combine_l in Hi. }
  assert (Htot := stacked_total hor (extent (main hor) R) fu cos Hsz).
  assert (Hq := tiles_sum _ _ _ _ Ht). rewrite Htot, Hfst in Hq. clear Htot.
  set (ms := filter (is_managed hor) cs) in *.
  destruct (fill_sum_nonneg (main hor) ms Hf) as [F1 [F2 F3]].
  exists rs, p, dd, fu. rewrite Hfst in Hr1. split; auto. split; [|split; [|split]].
  - eapply tiles_req; eauto.
  - unfold stop. rewrite Hq, Hm1.
    destruct (fill_sum (main hor) ms =? 0)%Z eqn:Ez.
    + apply Z.eqb_eq in Ez. rewrite Ez. change (inject_Z 0) with 0. field.
    + rewrite Hm2 by auto. lra.
  - intro He. apply F2 in He. rewrite Hm1.
    destruct (fill_sum (main hor) ms =? 0)%Z eqn:Ez; [apply Z.eqb_eq in Ez; lia | lra].
  - rewrite <- Hfst. clear - Hr2 Hsz.
    assert (Hx : forall cos', (forall c o, In (c, o) cos' -> In (c, o) cos) ->
       forall rs', Forall2 req rs' (map snd cos') ->
       Forall2 (fun c o => is_fill (size_arg (main hor) c) = true ->
         extent (main hor) o == fu * inject_Z (sv_fill (size_arg (main hor) c)))
         (map fst cos') rs').
    { induction cos' as [|[c o] cos' IH]; intros Hin rs' H2; simpl in *;
        inversion H2 as [|r' ? ? ? Hreq]; subst; constructor.
      - intro Ef. rewrite (req_extent _ _ _ Hreq). rewrite (Hsz c o) by (apply Hin; now left).
        now rewrite Ef.
      - apply IH; auto. }
    apply Hx; auto.
Qed.
