(** Properties of sizes, positions and layout: C08 - C21. *)
From Coq Require Import List ZArith NArith QArith Qfield Bool String Lia Lqa.
From Verif Require Import Py PyFacts ShowSpec ShowProofs LayoutModel LayoutSpec LayoutProofs
  LayoutProofs2 LayoutProofs3 LayoutProofs4 ValueSpec ValueProofs.
Import ListNotations.
Open Scope Q_scope.

(** ** Concrete trees used in the examples *)
Definition no_size : size_value := mkSize 0 None 0 None.
Definition px (q : Q) : size_value := mkSize q None 0 None.
Definition fill_size (n : Z) : size_value := mkSize 0 None n None.
Definition hd (id : nat) (x y : option pos_value) (w h : size_value) (hor : bool) : lhead :=
  mkHead id x y ANone ANone w h 0 0 0 0 hor [].
Definition empty_store : store := mkStore (fun _ => None) (fun _ => mkText 0 0 1).
Definition screen : rect := mkRect 0 0 200 100.
Definition rect_of (r : result store) (i : nat) : option rect :=
  match r with Ok s => st_rect s i | Err _ => None end.

(** ** C08 *)

(** The full C08 says that exactly the documented strings are accepted.  This is false:
    a final newline and extra parentheses are accepted (see C08_size_strict_refuted). What
    holds is: the documented strings are accepted with the documented meaning, and
    everything else that is accepted is a documented string with such a slack. *)
Theorem C08_size_grammar_partial : forall s v, parse_size (AStr s) = Ok v <->
  exists s0 ps nl, size_doc s0 v /\ size_slack s0 ps /\ eol nl /\ s = s0 ++ ps ++ nl.
Proof. exact size_grammar. Qed.
Print Assumptions C08_size_grammar_partial.

Theorem C08_size_documented : forall s v, size_doc s v -> parse_size (AStr s) = Ok v.
Proof.
  intros s v H. apply size_grammar. exists s, [], []. split; auto.
  split; [split; auto|]. split; [now left|]. now rewrite app_nil_r.
Qed.
Print Assumptions C08_size_documented.

Theorem C08_size_strict_refuted : exists s v, parse_size (AStr s) = Ok v /\
  forall v', ~ size_doc s v'.
Proof.
  exists (pys "fill(3))"), (mkSize 0 None 3 None). split; [vm_compute; reflexivity|].
  intros v' H. remember (pys "fill(3))") as z eqn:Ez.
  destruct H as [s n Hn|s n Hn| |s n Hn]; [| |discriminate|];
    apply numeral_digits in Hn; destruct Hn as [Hne [Hn _]].
  - rewrite Ez in Hn. inversion Hn as [|? ? Hc]; subst. vm_compute in Hc. discriminate.
  - destruct s as [|c s]; [congruence|]. inversion Hn as [|? ? Hc]; subst.
    injection Ez as E1 _. subst c. vm_compute in Hc. discriminate.
  - assert (E' : s ++ pys ")" = pys "3)" ++ pys ")") by (injection Ez as E'; exact E').
    apply app_inj_tail in E'. destruct E' as [-> _]. inversion Hn as [|? ? _ Hn']; subst.
    inversion Hn' as [|? ? Hc]; subst. vm_compute in Hc. discriminate.
Qed.
Print Assumptions C08_size_strict_refuted.

(** Numbers and lazy values are taken as they are, other objects raise. *)
Theorem C08_size_other : forall q f t,
  parse_size (ANum q) = Ok (mkSize q None 0 None) /\
  parse_size (ALazy f) = Ok (mkSize 0 None 0 (Some f)) /\
  (exists e, parse_size (AOther t) = Err e) /\ (exists e, parse_size (AStr []) = Err e).
Proof. intros q f t. repeat split; eexists; reflexivity. Qed.
Print Assumptions C08_size_other.

(** box() itself treats the empty string (like every false value) as "no size". *)
Theorem C08_empty_string_refuted : forall id, exists l,
  new_layout id (mkLArgs ANone ANone (AStr []) ANone None None None None None None None false)
    = Ok l.
Proof. intro id. eexists. reflexivity. Qed.
Print Assumptions C08_empty_string_refuted.

Example ex_C08 : size_doc (pys "fill(12)") (mkSize 0 None 12 None).
Proof.
  apply (sd_fill_n (pys "12") 12). apply (num_snoc (pys "1") 1 50%N 2).
  - apply (num_one 49%N 1). exists 48%N. split; [now left|]. simpl. lia.
  - exists 48%N. split; [now left|]. simpl. lia.
Qed.

(** ** C09 *)

(** The full C09 grammar is refuted by the final newline that is tolerated. *)
Theorem C09_pos_grammar_partial : forall s p, parse_pos (AStr s) = Ok p <->
  exists s0 nl, pos_doc s0 p /\ eol nl /\ s = s0 ++ nl.
Proof. exact pos_grammar. Qed.
Print Assumptions C09_pos_grammar_partial.

Theorem C09_pos_strict_refuted : exists s p, parse_pos (AStr s) = Ok p /\
  forall p', ~ pos_doc s p'.
Proof.
  exists [55%N; 10%N], (PosFix 7). split; [vm_compute; reflexivity|].
  intros p' H. remember [55%N; 10%N] as z eqn:Ez.
  destruct H as [s n Hn|s n Hn|s n Hn]; [| |discriminate];
    apply numeral_digits in Hn; destruct Hn as [_ [Hn _]].
  - rewrite Ez in Hn. inversion Hn as [|? ? _ Hn']; subst.
    inversion Hn' as [|? ? Hc]; subst. vm_compute in Hc. discriminate.
  - destruct s as [|c [|d s]]; try discriminate. destruct s; discriminate.
Qed.
Print Assumptions C09_pos_strict_refuted.

(** Meaning of the three forms: where a box of extent [own] starts in a parent that starts
    at [o] with extent [full]. *)
Theorem C09_pos_meaning : forall o full own n st x, 
  (pos_compute (PosFix n) o full own st = Ok x -> x == o + n) /\
  (pos_compute (PosRatio (n / 100)) o full own st = Ok x -> (x - o) * 100 == n * full) /\
  (pos_compute (PosAlign (n / 100)) o full own st = Ok x ->
     (x - o) * (100 - n) == ((o + full) - (x + own)) * n /\
     (n == 0 -> x == o) /\ (n == 50 -> x - o == (o + full) - (x + own)) /\
     (n == 100 -> x + own == o + full) /\
     (own <= full -> 0 <= n -> n <= 100 -> o <= x /\ x + own <= o + full)).
Proof.
  intros o full own n st x. simpl. split; [|split].
  - intro H. injection H as <-. reflexivity.
  - intro H. injection H as <-. field.
  - intro H. injection H as <-. split; [field|]. split; [intros ->; field|].
    split; [intros ->; field|]. split; [intros ->; field|].
    intros H1 H2 H3.
    assert (E : n / 100 * 100 == n) by field. set (t := n / 100) in *.
    assert (0 <= t) by lra. assert (t <= 1) by lra. clearbody t.
    assert (A : 0 <= (full - own) * t) by (apply Qmult_le_0_compat; lra).
    assert (B : 0 <= (full - own) * (1 - t)) by (apply Qmult_le_0_compat; lra).
    split; [lra|].
    assert (C : (full - own) * (1 - t) == (full - own) - (full - own) * t) by ring. lra.
Qed.
Print Assumptions C09_pos_meaning.

Example ex_C09 : parse_pos (AStr (pys "[50%]")) = Ok (PosAlign (50 / 100)) /\
  exists x, pos_compute (PosAlign (50 / 100)) 10 100 40 empty_store = Ok x /\ x == 40.
Proof. split; [reflexivity|]. eexists. split; [reflexivity|]. reflexivity. Qed.

(** ** C10, C11: stacking *)

(** Sizes that come from arguments have non negative fill factors. *)
Theorem C10_fill_factors : forall a v, parse_size a = Ok v -> (0 <= sv_fill v)%Z.
Proof.
  intros [|q|s|f|t] v H; simpl in H; try discriminate; try (injection H as <-; simpl; lia).
  assert (H' : parse_size (AStr s) = Ok v) by exact H.
  apply size_grammar in H'. destruct H' as [s0 [ps [nl [Hd _]]]].
  destruct Hd; simpl; try lia. now apply numeral_nonneg in H0.
Qed.
Print Assumptions C10_fill_factors.

(** C10: with at least one fill child, the stacked children of every box [p] of the tree
    tile its content area [R] along the stacking axis, and the fill children have extents
    proportional to their fill factors. *)
Theorem C10_fill_tiles : forall l r s S p R,
  NoDup (ids l) -> set_rect l r s = Ok S -> within p l -> area p S = Some R ->
  Forall (fun c => is_lazy (size_arg (stack_axis p) c) = false) (stacked p) ->
  Forall (fun c => (0 <= sv_fill (size_arg (stack_axis p) c))%Z) (stacked p) ->
  Exists (fun c => is_fill (size_arg (stack_axis p) c) = true) (stacked p) ->
  exists rs unit,
    Forall2 (fun c o => outer c S o) (stacked p) rs /\
    tiles (stack_axis p) rs (start (stack_axis p) R) (stop (stack_axis p) R) /\
    Forall2 (fun c o => is_fill (size_arg (stack_axis p) c) = true ->
       extent (stack_axis p) o == unit * inject_Z (sv_fill (size_arg (stack_axis p) c)))
      (stacked p) rs.
Proof.
  intros l r s S p R Hn H Hw HR Hl Hf He.
  assert (HL : laid any S l r) by (eapply set_rect_laid_any; eauto).
  destruct (laid_within _ _ _ _ _ Hw HL) as [rp HLp].
  destruct (stacking _ _ _ _ _ HLp HR Hl Hf) as [rs [a [b [u [H1 [H2 [H3 [H4 H5]]]]]]]].
  exists rs, u. split; auto. split; auto.
  eapply tiles_comp; [| |exact H2]; auto. specialize (H4 He). lra.
Qed.
Print Assumptions C10_fill_tiles.

Definition tree_fill : layout :=
  Node (hd 0 None None (px 200) (px 100) false)
    [Node (hd 1 None None no_size (fill_size 1) false) [];
     Node (hd 2 None None (px 50) (px 10) false) [];
     Node (hd 3 None None no_size (fill_size 2) true)
       [Node (hd 4 None None (fill_size 1) no_size false) []]].
Example ex_C10 : exists S, set_rect tree_fill screen empty_store = Ok S /\
  NoDup (ids tree_fill) /\ area tree_fill S = Some (mkRect 0 0 200 100) /\
  Exists (fun c => is_fill (size_arg Y c) = true) (stacked tree_fill) /\
  exists r1 r2 r3, st_rect S 1%nat = Some r1 /\ st_rect S 2%nat = Some r2 /\
    st_rect S 3%nat = Some r3 /\ rh r1 == 30 /\ rh r2 == 10 /\ rh r3 == 60 /\ ry r3 == 40.
Proof.
  eexists. split; [vm_compute; reflexivity|].
  split; [simpl; repeat constructor; simpl; intuition congruence|].
  split; [reflexivity|]. split; [apply Exists_cons_hd; reflexivity|].
  do 3 eexists. repeat split; vm_compute; reflexivity.
Qed.

(** C11: without fill children they are contiguous, and the space before the first equals
    the space after the last. *)
Theorem C11_stack_centred : forall l r s S p R,
  NoDup (ids l) -> set_rect l r s = Ok S -> within p l -> area p S = Some R ->
  Forall (fun c => is_lazy (size_arg (stack_axis p) c) = false) (stacked p) ->
  Forall (fun c => sv_fill (size_arg (stack_axis p) c) = 0%Z) (stacked p) ->
  exists rs a b,
    Forall2 (fun c o => outer c S o) (stacked p) rs /\
    tiles (stack_axis p) rs a b /\
    a - start (stack_axis p) R == stop (stack_axis p) R - b.
Proof.
  intros l r s S p R Hn H Hw HR Hl Hf.
  assert (HL : laid any S l r) by (eapply set_rect_laid_any; eauto).
  destruct (laid_within _ _ _ _ _ Hw HL) as [rp HLp].
  assert (Hf' : Forall (fun c => (0 <= sv_fill (size_arg (stack_axis p) c))%Z) (stacked p)).
  { eapply Forall_impl; [|exact Hf]. simpl. intros c ->. lia. }
  destruct (stacking _ _ _ _ _ HLp HR Hl Hf') as [rs [a [b [u [H1 [H2 [H3 _]]]]]]].
  exists rs, a, b. auto.
Qed.
Print Assumptions C11_stack_centred.

Definition tree_stack : layout :=
  Node (hd 0 None None (px 200) (px 100) false)
    [Node (hd 1 None None (px 20) (px 30) false) [];
     Node (hd 2 (Some (PosFix 5)) (Some (PosFix 5)) (px 20) (px 30) false) [];
     Node (hd 3 None None (px 50) (px 10) false) []].
Example ex_C11 : exists S, set_rect tree_stack screen empty_store = Ok S /\
  NoDup (ids tree_stack) /\ List.length (stacked tree_stack) = 2%nat /\
  exists r1 r3, st_rect S 1%nat = Some r1 /\ st_rect S 3%nat = Some r3 /\
    ry r1 == 30 /\ ry r3 == 60 /\ rx r1 == 90 /\ rx r3 == 75.
Proof.
  eexists. split; [vm_compute; reflexivity|].
  split; [simpl; repeat constructor; simpl; intuition congruence|].
  split; [reflexivity|]. do 2 eexists. repeat split; vm_compute; reflexivity.
Qed.

(** ** C12 *)

(** Full statement: for every child and both axes, size and position are the documented
    ones.  Missing here: y given as a percentage or alignment in a horizontal box
    ([skewed]), where the code uses the width of the parent (C12_horizontal_y_refuted). *)
Theorem C12_child_geometry_partial : forall l r s S p R c,
  NoDup (ids l) -> set_rect l r s = Ok S -> within p l -> area p S = Some R ->
  In c (kids p) ->
  exists o st, outer c S o /\ st_rect st (l_id (head p)) = Some R /\ forall a,
    (is_lazy (size_arg a c) = true \/ is_fill (size_arg a c) = false \/ a <> stack_axis p ->
       sized_as a c R o st) /\
    match pos_arg a c with
    | Some q => ~ skewed a p q -> placed_at a q R o st
    | None => a <> stack_axis p -> start a o - start a R == stop a R - stop a o
    end.
Proof.
  intros l r s S p R c Hn H Hw HR Hc.
  assert (HL : laid any S l r) by (eapply set_rect_laid_any; eauto).
  destruct (laid_within _ _ _ _ _ Hw HL) as [rp HLp].
  destruct (child_geometry _ _ _ _ _ _ HLp HR Hc) as [o [st [H1 [[_ H2] H3]]]].
  exists o, st. auto.
Qed.
Print Assumptions C12_child_geometry_partial.

(** In a horizontal box of 200 x 100 a child with y="50%" starts at 100, not at 50. *)
Definition tree_skew : layout :=
  Node (hd 0 None None (px 200) (px 100) true)
    [Node (hd 1 None (Some (PosRatio (50 / 100))) (px 20) (px 30) false) []].
Theorem C12_horizontal_y_refuted : exists l r s S R c o q,
  NoDup (ids l) /\ set_rect l r s = Ok S /\ area l S = Some R /\ In c (kids l) /\
  outer c S o /\ pos_arg Y c = Some (PosRatio q) /\
  ~ start Y o == start Y R + extent Y R * q.
Proof.
  exists tree_skew, screen, empty_store. eexists. eexists. eexists. eexists. exists (50 / 100).
  split; [simpl; repeat constructor; simpl; intuition congruence|].
  split; [vm_compute; reflexivity|]. split; [reflexivity|]. split; [left; reflexivity|].
  split; [eexists; split; reflexivity|]. split; [reflexivity|].
  vm_compute. discriminate.
Qed.
Print Assumptions C12_horizontal_y_refuted.

Definition tree_pos : layout :=
  Node (hd 0 None None (px 200) (px 100) false)
    [Node (hd 1 (Some (PosAlign (100 / 100))) (Some (PosRatio (25 / 100)))
             (mkSize 0 (Some (50 / 100)) 0 None) (fill_size 1) false)
       [Node (hd 2 None None (px 120) (px 7) false) []]].
Example ex_C12 : exists S, set_rect tree_pos screen empty_store = Ok S /\
  exists r1, st_rect S 1%nat = Some r1 /\ rw r1 == 120 /\ rx r1 == 80 /\ ry r1 == 25.
Proof.
  eexists. split; [vm_compute; reflexivity|]. eexists. repeat split; vm_compute; reflexivity.
Qed.

(** ** C13, C14 *)

(** C13: a child whose size is a number, a percentage or not given is at least as large
    as requested, and at least as large as its stacked children plus padding. *)
Theorem C13_min_sizes : forall l r s S p c o a,
  NoDup (ids l) -> set_rect l r s = Ok S -> within p l -> In c (kids p) -> outer c S o ->
  is_lazy (size_arg a c) = false -> is_fill (size_arg a c) = false ->
  sv_min (size_arg a c) <= extent a o /\ demand a c <= extent a o.
Proof.
  intros l r s S p c o a Hn H Hw Hc Ho Hl Hf.
  assert (HL : laid any S l r) by (eapply set_rect_laid_any; eauto).
  destruct (laid_within _ _ _ _ _ Hw HL) as [rp HLp].
  eapply holds_content; eauto.
Qed.
Print Assumptions C13_min_sizes.

(** C13: the demand covers each stacked child plus padding, and their sum along the
    stacking axis. *)
Theorem C13_demand : forall a l,
  sv_min (size_arg a l) <= demand a l /\
  (a = stack_axis l ->
     fold_right Qplus 0 (map (demand a) (stacked l)) + pad a l <= demand a l) /\
  (a <> stack_axis l -> forall c, In c (stacked l) -> demand a c + pad a l <= demand a l).
Proof.
  intros a [h cs]. split; [apply demand_own|].
  assert (H := demand_content a h cs). unfold content_demand in H.
  unfold stack_axis. cbn [head]. split.
  - intros ->. fold (main (l_horizontal h)) in *. rewrite along_main in H. exact H.
  - intros Ha c Hc.
    assert (Ea : along a (l_horizontal h) = false)
      by (destruct a, (l_horizontal h); try reflexivity; elim Ha; reflexivity).
    assert (Hx := cross_demand a (l_horizontal h)
                    (map (demand a) (stacked (Node h cs))) (demand a c) Ea (in_map _ _ _ Hc)).
    unfold content_demand in Hx. rewrite Ea in *. lra.
Qed.
Print Assumptions C13_demand.

(** C13: a text or image of width w raises the minimal width of its box to w plus the
    paddings, and never lowers it. *)
Theorem C13_text_size : forall h w,
  sv_min (l_width (ensure_width h w)) == qmax (sv_min (l_width h)) (w + l_left h + l_right h) /\
  sv_min (l_height (ensure_height h w)) == qmax (sv_min (l_height h)) (w + l_top h + l_bottom h).
Proof. intros h w. simpl. rewrite !ensure_min. split; reflexivity. Qed.
Print Assumptions C13_text_size.

Definition tree_overfull : layout :=
  Node (hd 0 None None (px 200) (px 100) false)
    [Node (hd 1 None None no_size (fill_size 1) false)
       [Node (hd 2 None None (px 10) (px 150) false) []];
     Node (hd 3 None None no_size (fill_size 1) false) []].

(** C14 is false: a fill box that holds 150 pixels gets 50. *)
Theorem C14_fill_content_refuted : exists l r s S c o,
  NoDup (ids l) /\ set_rect l r s = Ok S /\ In c (kids l) /\ outer c S o /\
  is_fill (size_arg Y c) = true /\ extent Y o < demand Y c.
Proof.
  exists tree_overfull, screen, empty_store. eexists. eexists. eexists.
  split; [simpl; repeat constructor; simpl; intuition congruence|].
  split; [vm_compute; reflexivity|]. split; [left; reflexivity|].
  split; [eexists; split; reflexivity|]. split; [reflexivity|]. vm_compute. reflexivity.
Qed.
Print Assumptions C14_fill_content_refuted.

(** C14, what holds: with a single fill child among children of plain sizes, a parent that
    is large enough for everything gives the fill child at least what it asks for.
    Missing: several fill children (false in general, as shown above). *)
Theorem C14_fill_content_partial : forall l r s S p R cs1 c cs2 o,
  NoDup (ids l) -> set_rect l r s = Ok S -> within p l -> area p S = Some R ->
  stacked p = cs1 ++ c :: cs2 ->
  (forall d, In d (cs1 ++ cs2) -> is_natural (size_arg (stack_axis p) d)) ->
  is_lazy (size_arg (stack_axis p) c) = false -> (0 < sv_fill (size_arg (stack_axis p) c))%Z ->
  fold_right Qplus 0 (map (demand (stack_axis p)) (stacked p)) <= extent (stack_axis p) R ->
  outer c S o -> demand (stack_axis p) c <= extent (stack_axis p) o.
Proof.
  intros l r s S p R cs1 c cs2 o Hn H Hw HR Es Hnat Hl Hf Hfit Ho.
  assert (Hfill : is_fill (size_arg (stack_axis p) c) = true).
  { unfold is_fill. destruct (Z.eqb_spec (sv_fill (size_arg (stack_axis p) c)) 0); auto; lia. }
  assert (Hin : forall d, In d (stacked p) -> d = c \/ In d (cs1 ++ cs2)).
  { intros d Hd. rewrite Es in Hd. apply in_app_or in Hd. destruct Hd as [Hd|[Hd|Hd]]; auto;
      right; apply in_or_app; auto. }
  destruct (C10_fill_tiles l r s S p R Hn H Hw HR) as [rs [u [H1 [H2 _]]]].
  - apply Forall_forall. intros d Hd. destruct (Hin d Hd) as [->|Hd']; auto.
    destruct (natural_not_fill _ (Hnat d Hd')). auto.
  - apply Forall_forall. intros d Hd. destruct (Hin d Hd) as [->|Hd']; [lia|].
    destruct (Hnat d Hd') as [_ [-> _]]. lia.
  - apply Exists_exists. exists c. split; auto. rewrite Es. apply in_elt.
  - assert (Hkid : forall d, In d (stacked p) -> In d (kids p)).
    { intros d Hd. unfold stacked in Hd. apply filter_In in Hd. tauto. }
    assert (Hex : forall d q, In d (cs1 ++ cs2) -> outer d S q ->
              extent (stack_axis p) q == demand (stack_axis p) d).
    { intros d q Hd Hq. assert (Hk : In d (kids p)).
      { apply Hkid. rewrite Es. apply in_app_or in Hd. apply in_or_app. simpl. tauto. }
      destruct (C12_child_geometry_partial l r s S p R d Hn H Hw HR Hk)
        as [q' [st [Hq' [_ HG]]]].
      rewrite (outer_unique _ _ _ _ Hq Hq'). destruct (HG (stack_axis p)) as [A _].
      destruct (natural_not_fill _ (Hnat d Hd)) as [N1 N2].
      specialize (A (or_intror (or_introl N1))). unfold sized_as in A. rewrite N1 in A.
      destruct (Hnat d Hd) as [N3 [_ N4]]. rewrite N3 in A.
      destruct N4 as [N4|[t [N4 N5]]]; rewrite N4 in A; auto.
      destruct A as [[_ A]|[A _]]; [auto | contradiction]. }
    apply tiles_sum in H2. unfold stop in H2. rewrite Es in H1, Hfit.
    apply Forall2_app_inv_l in H1. destruct H1 as [rs1 [rs' [F1 [F2 ->]]]].
    inversion F2 as [|? o' ? rs2 Ho' F3]; subst.
    rewrite (outer_unique _ _ _ _ Ho Ho').
    assert (Hsum : forall ds qs, (forall d, In d ds -> In d (cs1 ++ cs2)) ->
      Forall2 (fun d q => outer d S q) ds qs ->
      fold_right Qplus 0 (map (demand (stack_axis p)) ds) ==
      fold_right Qplus 0 (map (extent (stack_axis p)) qs)).
    { intros ds qs Hd HF. induction HF as [|d q ds qs Hq HF IH]; simpl; [reflexivity|].
      rewrite IH by (intros; apply Hd; now right).
      rewrite (Hex d q); [reflexivity | apply Hd; now left | auto]. }
    assert (Happ : forall (a b : list Q), fold_right Qplus 0 (a ++ b) ==
              fold_right Qplus 0 a + fold_right Qplus 0 b).
    { intros a b. induction a as [|x a IH]; simpl; [ring|]. rewrite IH. ring. }
    rewrite map_app, Happ in *. cbn [map fold_right] in *.
    rewrite (Hsum cs1 rs1), (Hsum cs2 rs2) in Hfit; auto;
      try (intros; apply in_or_app; auto). lra.
Qed.
Print Assumptions C14_fill_content_partial.

Definition tree_fits : layout :=
  Node (hd 0 None None (px 200) (px 100) false)
    [Node (hd 1 None None no_size (fill_size 1) false)
       [Node (hd 2 None None (px 10) (px 70) false) []];
     Node (hd 3 None None no_size (px 20) false) []].
Example ex_C14 : NoDup (ids tree_fits) /\ is_ok (set_rect tree_fits screen empty_store) = true /\
  stacked tree_fits = [] ++ nth 0 (kids tree_fits) tree_fits :: [nth 1 (kids tree_fits) tree_fits] /\
  fold_right Qplus 0 (map (demand Y) (stacked tree_fits)) <= 100.
Proof.
  split; [simpl; repeat constructor; simpl; intuition congruence|].
  split; [vm_compute; reflexivity|]. split; [reflexivity|]. vm_compute. discriminate.
Qed.

(** ** C15 *)
Lemma set_padding_resolves : forall a b c, exists q, resolves a b c q /\ set_padding a b c == q.
Proof.
  intros [a|] [b|] [c|]; simpl; try (eexists; split; [constructor|reflexivity]).
  exists c. split; [constructor|]. destruct (qtrue c) eqn:E; [reflexivity|].
  apply qtrue_false in E. now symmetry.
Qed.

Theorem C15_padding_resolution : forall id a l, new_layout id a = Ok l ->
  (exists q, resolves (a_left a) (a_px a) (a_padding a) q /\ pad_before X l == q) /\
  (exists q, resolves (a_right a) (a_px a) (a_padding a) q /\ pad_after X l == q) /\
  (exists q, resolves (a_top a) (a_py a) (a_padding a) q /\ pad_before Y l == q) /\
  (exists q, resolves (a_bottom a) (a_py a) (a_padding a) q /\ pad_after Y l == q).
Proof.
  intros id a l H. unfold new_layout in H.
  destruct (opt_pos (a_x a)) as [x|]; [|discriminate]. simpl in H.
  destruct (opt_pos (a_y a)) as [y|]; [|discriminate]. simpl in H.
  destruct (parse_size (or_zero (a_width a))) as [w|]; [|discriminate]. simpl in H.
  destruct (parse_size (or_zero (a_height a))) as [h|]; [|discriminate]. simpl in H.
  injection H as <-. simpl. repeat split; apply set_padding_resolves.
Qed.
Print Assumptions C15_padding_resolution.

(** The content area of the root is the given rectangle without the paddings; for other
    boxes the allotted rectangle is what C10 - C13 speak about ([outer]). *)
Theorem C15_content_area : forall l r s S, NoDup (ids l) -> set_rect l r s = Ok S ->
  exists R, area l S = Some R /\ forall a,
    start a R == start a r + pad_before a l /\ stop a R == stop a r - pad_after a l.
Proof.
  intros l r s S Hn H. exists (content (head l) r). split; [now apply set_rect_self with s|].
  destruct l as [h cs]. cbn [head]. intro a. unfold stop.
  rewrite (content_start a h cs), (content_extent a h cs). unfold pad. split; ring.
Qed.
Print Assumptions C15_content_area.

Definition pad_args : layout_args :=
  mkLArgs ANone ANone ANone ANone (Some 3) None None None (Some 5) None (Some 7) false.
Example ex_C15 : exists l, new_layout 1 pad_args = Ok l /\ pad_before X l == 3 /\
  pad_after X l == 5 /\ pad_before Y l == 7 /\ pad_after Y l == 7.
Proof. eexists. split; [reflexivity|]. repeat split; reflexivity. Qed.

(** ** C16 *)
Theorem C16_containment : forall l r s S,
  NoDup (ids l) -> set_rect l r s = Ok S -> natural_inside l ->
  (forall a, demand a l <= extent a r) ->
  forall p, within p l -> exists R, area p S = Some R /\
    exists os, Forall2 (fun d o => outer d S o /\ inside o R) (kids p) os /\
    (forall i j oi oj, (i < j)%nat -> nth_error os i = Some oi -> nth_error os j = Some oj ->
       stop (stack_axis p) oi <= start (stack_axis p) oj).
Proof.
  intros l r s S Hn H Hnat Hb.
  assert (HL : laid any S l r) by (eapply set_rect_laid_any; eauto).
  eapply natural_containment; eauto.
Qed.
Print Assumptions C16_containment.

Definition tree_natural : layout :=
  Node (hd 0 None None (px 200) (px 100) false)
    [Node (hd 1 None None (px 20) no_size true)
       [Node (hd 2 None None (px 30) (px 7) false) [];
        Node (mkHead 3 None None ANone ANone (px 30) (px 7) 1 2 3 4 false []) []];
     Node (hd 4 None None no_size (px 7) false) []].
Example ex_C16 : natural_inside tree_natural /\ (forall a, demand a tree_natural <= extent a screen)
  /\ NoDup (ids tree_natural) /\ is_ok (set_rect tree_natural screen empty_store) = true.
Proof.
  split; [|split; [|split]].
  - intros p d Hp Hd. unfold tree_natural in Hp.
    repeat match goal with
      | H : within _ (Node _ _) |- _ => inversion H; clear H; subst
      | H : In _ (kids (Node _ _)) |- _ => cbn [kids] in H
      | H : In _ (_ :: _) |- _ => destruct H as [<-|H]
      | H : In _ [] |- _ => destruct H
      end; intros []; (split; [reflexivity|]); (split; [repeat split; auto|]);
      repeat split; vm_compute; discriminate.
  - intros []; vm_compute; discriminate.
  - simpl; repeat constructor; simpl; intuition congruence.
  - vm_compute. reflexivity.
Qed.

(** ** C17 *)

(** Adding a box that is positioned on both axes anywhere in the tree leaves all other
    rectangles unchanged, provided that no other box refers to it. *)
Theorem C17_positioned_insertion : forall c l l' r s S S',
  inserted c l l' -> positioned c -> ignores c l ->
  (forall t, text_of t l -> ~ text_of t c) ->
  set_rect l r s = Ok S -> set_rect l' r s = Ok S' ->
  forall i, ~ In i (ids c) -> st_rect S' i = st_rect S i.
Proof.
  intros c l l' r s S S' Hi Hp Hg Ht H H' i Hni.
  destruct (insertion c l l' Hi Hp Hg Ht r s s S S' (agree_refl c s) H H') as [A _].
  symmetry. now apply A.
Qed.
Print Assumptions C17_positioned_insertion.

(** overlay() starts where the parent starts and covers it exactly, unless its own content
    is larger than the parent. *)
Definition overlay_args : layout_args :=
  mkLArgs (ANum 0) (ANum 0) (AStr (pys "100%")) (AStr (pys "100%"))
    None None None None None None None false.
Definition full_size (c : layout) : Prop := forall a,
  pos_arg a c = Some (PosFix 0) /\ is_lazy (size_arg a c) = false /\
  is_fill (size_arg a c) = false /\
  exists q, sv_ratio (size_arg a c) = Some q /\ q == 1.

Theorem C17_overlay_args : forall id c w h, new_layout id overlay_args = Ok c ->
  full_size c /\ full_size (Node (ensure_height (ensure_width (head c) w) h) (kids c)).
Proof.
  intros id c w h H. vm_compute in H. injection H as <-.
  split; intros []; unfold size_arg; cbn [head ensure_height ensure_width l_width l_height];
    (split; [reflexivity|]); unfold is_lazy, is_fill;
    try match goal with |- context [ensure ?v ?q] =>
          let A := fresh in let B := fresh in let C := fresh in
          destruct (ensure_fields v q) as [A [B C]]; rewrite A, B, C end;
    (split; [reflexivity|]); (split; [reflexivity|]);
    eexists; (split; [reflexivity|]); reflexivity.
Qed.
Print Assumptions C17_overlay_args.

Theorem C17_overlay_covers : forall l r s S p R c,
  NoDup (ids l) -> set_rect l r s = Ok S -> within p l -> area p S = Some R ->
  In c (kids p) -> full_size c -> (forall a, demand a c <= extent a R) ->
  exists o, outer c S o /\ req o R.
Proof.
  intros l r s S p R c Hn H Hw HR Hin Hc Hd.
  destruct (C12_child_geometry_partial l r s S p R c Hn H Hw HR Hin)
    as [o [st [Ho [_ HG]]]].
  exists o. split; auto.
  assert (HA : forall a, start a o == start a R /\ extent a o == extent a R).
  { intro a. destruct (HG a) as [A B]. destruct (Hc a) as [Ep [El [Ef [q [Eq Hq]]]]].
    rewrite Ep in B. unfold sized_as in A. rewrite Ef, Eq in A.
    unfold is_lazy in *. destruct (sv_lazy (size_arg a c)); [discriminate|].
    split.
    - simpl in B. rewrite B; [ring|]. intros [_ [_ []]].
    - destruct A as [[A _]|[_ A]]; [auto | rewrite A in Hq; discriminate |].
      rewrite A. specialize (Hd a).
      assert (E1 : extent a R * q == extent a R) by (rewrite Hq; ring).
      destruct (qmax_case (extent a R * q) (demand a c)) as [[-> _]|[-> Hlt]]; lra. }
  destruct (HA X), (HA Y). unfold req. simpl in *. auto.
Qed.
Print Assumptions C17_overlay_covers.

Definition overlay_box (id : nat) : layout :=
  match new_layout id overlay_args with Ok l => l | Err _ => tree_fill end.
Example ex_C17 : exists l', inserted (overlay_box 9) tree_fill l' /\
  positioned (overlay_box 9) /\ ignores (overlay_box 9) tree_fill /\
  is_ok (set_rect l' screen empty_store) = true /\ NoDup (ids l').
Proof.
  eexists. split; [|split; [|split; [|split]]].
  - unfold tree_fill. apply (ins_here _ _
      [Node (hd 1 None None no_size (fill_size 1) false) []]).
  - intros []; discriminate.
  - intros b f Hb Hf. exfalso. unfold tree_fill in Hb.
    repeat match goal with
      | H : within _ (Node _ _) |- _ => inversion H; clear H; subst
      | H : In _ (_ :: _) |- _ => destruct H as [<-|H]
      | H : In _ [] |- _ => destruct H
      end; unfold lazy_in in Hf; simpl in Hf; intuition discriminate.
  - vm_compute. reflexivity.
  - simpl; repeat constructor; simpl; intuition congruence.
Qed.

(** ** C18 *)
Theorem C18_translation : forall v l r r' s s' S S',
  NoDup (ids l) -> static l -> set_rect l r s = Ok S -> set_rect l r' s' = Ok S' ->
  req r' (translate v r) ->
  forall p, within p l -> exists R R', area p S = Some R /\ area p S' = Some R' /\
    req R' (translate v R).
Proof.
  intros v l r r' s s' S S' Hn Hst H H' Hr p Hp.
  assert (HL : laid any S l r) by (eapply set_rect_laid_any; eauto).
  assert (HL' : laid any S' l r') by (eapply set_rect_laid_any; eauto).
  apply shifted_translate in Hr.
  destruct (laid_translate v _ _ _ _ _ _ _ HL HL' Hst Hr p Hp) as [R [R' [A [B C]]]].
  exists R, R'. split; auto. split; auto. now apply shifted_translate.
Qed.
Print Assumptions C18_translation.

Example ex_C18 : static tree_pos /\ is_ok (set_rect tree_pos (translate (fun _ => 5) screen)
  empty_store) = true.
Proof.
  split; [|vm_compute; reflexivity]. intros c Hc. unfold tree_pos in Hc.
  repeat match goal with
      | H : within _ (Node _ _) |- _ => inversion H; clear H; subst
      | H : In _ (_ :: _) |- _ => destruct H as [<-|H]
      | H : In _ [] |- _ => destruct H
      end; repeat split; simpl; intros; try reflexivity; discriminate.
Qed.

(** ** C19 *)

(** On a first render, a position or size given by a lazy value has the value that the
    lazy value has at the end, when all rectangles are final. *)
Theorem C19_lazy_final : forall owner l r s S p c R,
  NoDup (ids l) -> owned owner l -> user_tree owner l -> fresh s -> set_rect l r s = Ok S ->
  within p l -> In c (kids p) -> area p S = Some R ->
  exists o, outer c S o /\ forall a,
    (is_lazy (size_arg a c) = true -> sized_as a c R o S) /\
    (forall q, pos_arg a c = Some q -> ~ skewed a p q -> placed_at a q R o S).
Proof. exact lazy_final. Qed.
Print Assumptions C19_lazy_final.

(** A reference to a box that is laid out later makes the first render raise. *)
Theorem C19_forward_reference_raises : forall l r s p c j q,
  fresh s -> within p l -> In c (kids p) ->
  lazy_in (layout_x j q) (head c) \/ lazy_in (layout_y j q) (head c) ->
  ~ precedes j (l_id (head c)) l ->
  exists e, set_rect l r s = Err e.
Proof.
  intros l r s p c j q Hf Hw Hc Hl Hp.
  destruct (set_rect l r s) as [S|e] eqn:E; [exfalso|eauto].
  assert (Hx : exists f st v, f st = Ok v /\ (f = layout_x j q \/ f = layout_y j q) /\
    forall i, st_rect st i <> None -> st_rect s i <> None \/ precedes i (l_id (head c)) l).
  { destruct Hl as [Hl|Hl];
      destruct (evaluated_in l r s S E p c _ Hw Hc Hl) as [st [v [H1 H2]]]; eauto 8. }
  destruct Hx as [f [st [v [H1 [H2 H3]]]]].
  assert (Hj : st_rect st j <> None).
  { intro Hn. destruct H2 as [-> | ->]; unfold layout_x, layout_y in H1; rewrite Hn in H1;
      discriminate. }
  destruct (H3 j Hj) as [Hs|Hs]; [now rewrite Hf in Hs | contradiction].
Qed.
Print Assumptions C19_forward_reference_raises.

Definition tree_lazy (j : nat) : layout :=
  Node (hd 0 None None (px 200) (px 100) false)
    [Node (hd 1 None None (px 20) (px 10) false) [];
     Node (hd 2 (Some (PosLazy (lazy_add 3 (layout_x j (PosRatio 1))))) None (px 30) (px 30) false) [];
     Node (hd 3 None None (px 40) (px 10) false) []].
Example ex_C19_back : exists S, set_rect (tree_lazy 1) screen empty_store = Ok S /\
  user_tree (fun _ => 0%nat) (tree_lazy 1) /\
  exists r1 r2, st_rect S 1%nat = Some r1 /\ st_rect S 2%nat = Some r2 /\
    rx r2 == rx r1 + rw r1 + 3.
Proof.
  eexists. split; [vm_compute; reflexivity|]. split.
  - intros p c f Hp Hc Hf. unfold tree_lazy in Hp.
    repeat match goal with
      | H : within _ (Node _ _) |- _ => inversion H; clear H; subst
      | H : In _ (kids (Node _ _)) |- _ => cbn [kids] in H
      | H : In _ (_ :: _) |- _ => destruct H as [<-|H]
      | H : In _ [] |- _ => destruct H
      end; unfold lazy_in in Hf; simpl in Hf;
      destruct Hf as [Hf|[Hf|[Hf|Hf]]]; try discriminate.
    injection Hf as <-. apply ul_map. apply ul_x. discriminate.
  - do 2 eexists. split; [vm_compute; reflexivity|]. split; [vm_compute; reflexivity|].
    vm_compute. reflexivity.
Qed.
Example ex_C19_forward : set_rect (tree_lazy 3) screen empty_store = Err EAttribute.
Proof. vm_compute. reflexivity. Qed.

(** ** C20 *)

(** Full statement: a second render gives the same rectangles and text scales.  Missing:
    texts that are scaled to fit (refuted below). *)
Theorem C20_render_twice_partial : forall owner l r s S,
  NoDup (ids l) -> owned owner l -> user_tree owner l -> no_scaled_text l ->
  fresh s -> set_rect l r s = Ok S ->
  exists S', set_rect l r S = Ok S' /\ (forall i, st_rect S' i = st_rect S i) /\
    (forall t, st_text S' t = st_text S t).
Proof. exact render_again. Qed.
Print Assumptions C20_render_twice_partial.

Definition tree_scaled : layout :=
  Node (mkHead 0 None None ANone ANone (px 200) (px 100) 0 0 0 0 false [0%nat]) [].
Definition text_store : store := mkStore (fun _ => None) (fun _ => mkText 100 25 1).
(** A text of 100 x 25 in a box of 200 x 100 is scaled by 2 in the first render and by 1
    in the second. *)
Theorem C20_scaled_text_refuted : exists l r s S S',
  NoDup (ids l) /\ fresh s /\ set_rect l r s = Ok S /\ set_rect l r S = Ok S' /\
  exists t, tx_scale (st_text S t) == 2 /\ tx_scale (st_text S' t) == 1.
Proof.
  exists tree_scaled, screen, text_store. do 2 eexists.
  split; [simpl; repeat constructor; simpl; intuition congruence|].
  split; [intro; reflexivity|]. split; [vm_compute; reflexivity|].
  split; [vm_compute; reflexivity|]. exists 0%nat. split; vm_compute; reflexivity.
Qed.
Print Assumptions C20_scaled_text_refuted.

Example ex_C20 : no_scaled_text (tree_lazy 1) /\ owned (fun _ => 0%nat) (tree_lazy 1).
Proof.
  assert (H : no_scaled_text (tree_lazy 1)).
  { intros c Hc. unfold tree_lazy in Hc.
    repeat match goal with
      | H : within _ (Node _ _) |- _ => inversion H; clear H; subst
      | H : In _ (_ :: _) |- _ => destruct H as [<-|H]
      | H : In _ [] |- _ => destruct H
      end; reflexivity. }
  split; auto. intros c Hc t Ht. rewrite (H c Hc) in Ht. destruct Ht.
Qed.

(** ** C21 *)

(** After a render, a text of [tw] x [th] that is scaled to fit a box with content area
    [R] keeps its aspect ratio, fits and touches the box. *)
Theorem C21_scale_to_fit : forall l r s S c t R,
  NoDup (ids l) -> NoDup (texts l) -> set_rect l r s = Ok S ->
  within c l -> In t (l_texts (head c)) -> area c S = Some R ->
  1 # 100000 < tx_w (st_text s t) -> 1 # 100000 < tx_h (st_text s t) ->
  let w := tx_w (st_text S t) in
  let h := tx_h (st_text S t) in
  w * tx_h (st_text s t) == h * tx_w (st_text s t) /\
  w == tx_scale (st_text S t) * tx_w (st_text s t) /\
  w <= rw R /\ h <= rh R /\ (w == rw R \/ h == rh R).
Proof.
  intros l r s S c t R Hn Ht H Hc Hin HR Hw Hh. change (1 # 100000) with tiny in *.
  rewrite (text_final l r s S Hn Ht H c t R Hc Hin HR).
  destruct (st_text s t) as [tw th sc]. unfold scale_callback. cbn [tx_w tx_h] in *.
  assert (E1 : Qle_bool tw tiny = false).
  { destruct (Qle_bool tw tiny) eqn:E; auto. apply Qle_bool_iff in E. lra. }
  assert (E2 : Qle_bool th tiny = false).
  { destruct (Qle_bool th tiny) eqn:E; auto. apply Qle_bool_iff in E. lra. }
  rewrite E1, E2. cbn [negb andb tx_w tx_h tx_scale].
  assert (P1 : 0 < tw) by (unfold tiny in *; lra). assert (P2 : 0 < th) by (unfold tiny in *; lra).
  assert (F1 : tw * (rw R / tw) == rw R) by (field; lra).
  assert (F2 : th * (rh R / th) == rh R) by (field; lra).
  split; [ring|]. split; [ring|].
  destruct (qmin_case (rw R / tw) (rh R / th)) as [[-> Hle]|[-> Hlt]].
  - split; [lra|]. split; [|left; exact F1].
    rewrite <- F2. apply Qmult_le_l with (z := th); auto.
  - split; [|split; [lra | right; exact F2]].
    rewrite <- F1. apply Qmult_le_l with (z := tw); auto. lra.
Qed.
Print Assumptions C21_scale_to_fit.

Example ex_C21 : exists S, set_rect tree_scaled screen text_store = Ok S /\
  NoDup (texts tree_scaled) /\ tx_w (st_text S 0%nat) == 200 /\ tx_h (st_text S 0%nat) == 50.
Proof.
  eexists. split; [vm_compute; reflexivity|].
  split; [simpl; repeat constructor; simpl; intuition congruence|].
  split; vm_compute; reflexivity.
Qed.
