(** More properties of the layout: sizes that are not given, the root of a slide, the order
    of children, points of boxes. *)
From Coq Require Import List ZArith NArith QArith Bool String Lia Lqa.
From Verif Require Import Py LayoutModel LayoutSpec LayoutProofs LayoutProofs2 LayoutProps.
Import ListNotations.
Open Scope Q_scope.

(** ** C13: without a size a box asks for nothing itself *)
Definition false_value (a : arg) : bool :=
  match a with
  | ANone | AStr [] | AOther false => true
  | ANum q => Qeq_bool q 0
  | _ => false
  end.
Definition axis_arg (x : axis) (a : layout_args) : arg :=
  match x with X => a_width a | Y => a_height a end.
Theorem C13_size_arguments : forall id a l x, new_layout id a = Ok l ->
  (false_value (axis_arg x a) = true -> size_arg x l = mkSize 0 None 0 None) /\
  (false_value (axis_arg x a) = false -> parse_size (axis_arg x a) = Ok (size_arg x l)).
Proof.
  intros id a l x H. unfold new_layout in H.
  destruct (opt_pos (a_x a)) as [px0|]; [|discriminate]. cbn [rbind] in H.
  destruct (opt_pos (a_y a)) as [py0|]; [|discriminate]. cbn [rbind] in H.
  destruct (parse_size (or_zero (a_width a))) as [w|] eqn:Ew; [|discriminate]. cbn [rbind] in H.
  destruct (parse_size (or_zero (a_height a))) as [h|] eqn:Eh; [|discriminate]. cbn [rbind] in H.
  injection H as <-.
  assert (G : forall b v, parse_size (or_zero b) = Ok v ->
    (false_value b = true -> v = mkSize 0 None 0 None) /\
    (false_value b = false -> parse_size b = Ok v)).
  { intros b v Hb. split; intros F.
    - destruct b as [|q|[|c s]|f|[]]; cbn [or_zero false_value] in *; try discriminate;
        try (cbn [parse_size] in Hb; now injection Hb as <-).
      unfold qtrue in Hb. rewrite F in Hb. cbn in Hb. now injection Hb as <-.
    - destruct b as [|q|[|c s]|f|[]]; cbn [or_zero false_value] in *; try discriminate; auto.
      unfold qtrue in Hb. rewrite F in Hb. exact Hb. }
  destruct x; cbn [size_arg head l_width l_height axis_arg]; auto.
Qed.
Print Assumptions C13_size_arguments.

(** So the extent of a stacked box without a size is what its content asks for. *)
Theorem C13_no_size : forall id a c0 cs l r s S p R o x,
  new_layout id a = Ok c0 -> false_value (axis_arg x a) = true ->
  NoDup (ids l) -> set_rect l r s = Ok S -> within p l -> area p S = Some R ->
  let c := Node (head c0) cs in
  In c (kids p) -> outer c S o -> extent x o == demand x c /\
  (cs = [] -> 0 <= pad x c -> extent x o == pad x c).
Proof.
  intros id a c0 cs l r s S p R o x Hl Hf Hn H Hw HR c Hc Ho.
  destruct (C13_size_arguments id a c0 x Hl) as [E _]. specialize (E Hf).
  destruct (C12_child_geometry_partial l r s S p R c Hn H Hw HR Hc) as [o' [st [Ho' [_ G]]]].
  assert (o' = o). { destruct Ho as [r1 [A1 ->]], Ho' as [r2 [A2 ->]]. congruence. } subst o'.
  destruct (G x) as [G1 _].
  assert (Ec : size_arg x c = mkSize 0 None 0 None) by (destruct x; exact E).
  assert (Gs : sized_as x c R o st) by (apply G1; right; left; now rewrite Ec).
  unfold sized_as in Gs. rewrite Ec in Gs.
  assert (Gd : extent x o == demand x c) by exact Gs. clear Gs. split; [exact Gd|].
  intros Hcs Hp. rewrite Gd.
  assert (D : demand x c = qmax (sv_min (size_arg x c)) (0 + pad x c)).
  { unfold c. rewrite Hcs. cbn [demand]. destruct x, (l_horizontal (head c0)); reflexivity. }
  rewrite D, Ec. cbn [sv_min]. unfold qmax.
  destruct (Qle_bool (0 + pad x c) 0) eqn:B.
  - apply Qle_bool_iff in B. lra.
  - lra.
Qed.
Print Assumptions C13_no_size.

Example ex_C13_no_size : exists c0 S R,
  new_layout 1 (mkLArgs ANone ANone ANone ANone None None None None (Some 4) None None false) = Ok c0 /\
  set_rect (Node (hd 0 None None (px 200) (px 100) false) [c0]) screen empty_store = Ok S /\
  area (Node (hd 0 None None (px 200) (px 100) false) [c0]) S = Some R /\
  exists o, outer c0 S o /\ extent X o == 8 /\ extent Y o == 0.
Proof.
  do 3 eexists. split; [reflexivity|]. split; [vm_compute; reflexivity|].
  split; [reflexivity|]. eexists. split; [eexists; split; reflexivity|].
  split; vm_compute; reflexivity.
Qed.

(** ** C16: the root box is the slide, and the order of stacked boxes *)
Theorem C16_root : forall l w h s S, NoDup (ids l) -> prepare l w h s = Ok S ->
  exists R, area l S = Some R /\
    start X R == pad_before X l /\ stop X R == w - pad_after X l /\
    start Y R == pad_before Y l /\ stop Y R == h - pad_after Y l.
Proof.
  intros l w h s S Hn H. unfold prepare in H.
  destruct (C15_content_area l _ s S Hn H) as [R [A G]]. exists R. split; [exact A|].
  destruct (G X) as [G1 G2], (G Y) as [G3 G4].
  unfold stop in *. cbn [start extent rx ry rw rh] in *. repeat split; lra.
Qed.
Print Assumptions C16_root.

(** A box added last comes after all others of its parent, one that is prepended before. *)
Theorem C16_added_order : forall l c (prepend : bool) r s S d oc od,
  let p := add_kid l c prepend in
  NoDup (ids p) -> set_rect p r s = Ok S -> natural_inside p ->
  (forall a, demand a p <= extent a r) ->
  In d (kids l) -> outer c S oc -> outer d S od ->
  if prepend then stop (stack_axis l) oc <= start (stack_axis l) od
  else stop (stack_axis l) od <= start (stack_axis l) oc.
Proof.
  intros l c prepend r s S d oc od p Hn H Hnat Hd Hin Hc Hod.
  destruct (C16_containment p r s S Hn H Hnat Hd p (within_refl p)) as [R [_ [os [F O]]]].
  assert (U : forall e o o', outer e S o -> outer e S o' -> o = o').
  { intros e o o' [r1 [A1 ->]] [r2 [A2 ->]]. congruence. }
  assert (Ax : stack_axis p = stack_axis l) by (destruct l; reflexivity). rewrite Ax in O.
  destruct l as [h cs]. cbn [kids] in Hin. unfold p, add_kid in F. cbn [kids] in F.
  destruct prepend.
  - inversion F as [|? o ? os' [Fo _] F' E1 E2]; subst.
    rewrite (U _ _ _ Hc Fo). apply In_nth_error in Hin. destruct Hin as [n Hin].
    assert (G : exists o', nth_error os' n = Some o' /\ outer d S o').
    { clear - F' Hin. revert n Hin. induction F' as [|x y xs ys [Hx _] F IH]; intros [|n] Hn; cbn in *; try discriminate.
      - injection Hn as ->. eauto.
      - eauto. }
    destruct G as [o' [Hn' Ho']]. rewrite (U _ _ _ Hod Ho').
    apply (O 0%nat (Datatypes.S n)); auto. lia.
  - apply Forall2_app_inv_l in F. destruct F as [os1 [os2 [F1 [F2 ->]]]].
    inversion F2 as [|? o ? os' [Fo _] F' E1 E2]; subst. inversion F'; subst.
    rewrite (U _ _ _ Hc Fo). apply In_nth_error in Hin. destruct Hin as [n Hin].
    assert (G : exists o', nth_error os1 n = Some o' /\ outer d S o').
    { clear - F1 Hin. revert n Hin. induction F1 as [|x y xs ys [Hx _] F IH]; intros [|n] Hn; cbn in *; try discriminate.
      - injection Hn as ->. eauto.
      - eauto. }
    destruct G as [o' [Hn' Ho']]. rewrite (U _ _ _ Hod Ho').
    assert (L : (n < List.length os1)%nat) by (apply nth_error_Some; congruence).
    apply (O n (List.length os1)); auto.
    + now rewrite nth_error_app1.
    + rewrite nth_error_app2 by lia. now rewrite Nat.sub_diag.
Qed.
Print Assumptions C16_added_order.

(** ** C19: what x() and y() of a box stand for *)

(** A point given like a position, without an extent of its own. *)
Definition point_at (a : axis) (p : pos_value) (R : rect) (v : Q) : Prop :=
  match p with
  | PosFix q => v == start a R + q
  | PosRatio q | PosAlign q => v == start a R + extent a R * q
  | _ => False
  end.
Definition layout_point (a : axis) : nat -> pos_value -> lazy :=
  match a with X => layout_x | Y => layout_y end.
Theorem C19_points : forall a l S R p v,
  area l S = Some R -> match p with PosFix _ | PosRatio _ | PosAlign _ => True | _ => False end ->
  (layout_point a (l_id (head l)) p S = Ok v -> point_at a p R v) /\
  exists v', layout_point a (l_id (head l)) p S = Ok v'.
Proof.
  intros a l S R p v HR Hp. unfold area in HR.
  destruct a, p; cbn [layout_point]; unfold layout_x, layout_y; rewrite HR; try contradiction;
    cbn [pos_compute]; (split; [intros E; injection E as <-; cbn [point_at start extent]; ring|eauto]).
Qed.
Print Assumptions C19_points.
(** LazyValue.add shifts the point, whatever the value is. *)
Theorem C19_add : forall f S q v, lazy_add q f S = Ok v <-> exists u, f S = Ok u /\ v = u + q.
Proof.
  intros f S q v. unfold lazy_add, lazy_map. destruct (f S) as [u|e]; cbn [rbind].
  - split; [intros E; injection E as <-; eauto|intros [u' [E ->]]; congruence].
  - split; [discriminate|intros [u' [E _]]; discriminate].
Qed.
Print Assumptions C19_add.

(** C14, exactly: next to children of plain sizes, the fill children share what the plain ones
    leave in the ratio of their factors. So one is at least as large as its content requires
    iff its share is. *)
Definition factor (a : axis) (d : layout) : Q := inject_Z (sv_fill (size_arg a d)).
Definition taken (a : axis) (d : layout) : Q := if is_fill (size_arg a d) then 0 else demand a d.
Definition total (f : layout -> Q) (ds : list layout) : Q := fold_right Qplus 0 (map f ds).
Theorem C14_shares : forall l r s S p R c o,
  NoDup (ids l) -> set_rect l r s = Ok S -> within p l -> area p S = Some R ->
  (forall d, In d (stacked p) -> is_natural (size_arg (stack_axis p) d) \/
     is_lazy (size_arg (stack_axis p) d) = false /\ (0 < sv_fill (size_arg (stack_axis p) d))%Z) ->
  In c (stacked p) -> (0 < sv_fill (size_arg (stack_axis p) c))%Z -> outer c S o ->
  let a := stack_axis p in
  let share := (extent a R - total (taken a) (stacked p)) * factor a c in
  0 < total (factor a) (stacked p) /\
  extent a o * total (factor a) (stacked p) == share /\
  (demand a c <= extent a o <-> demand a c * total (factor a) (stacked p) <= share).
Proof.
  intros l r s S p R c o Hn H Hw HR Hd Hc Hf Ho a share.
  assert (Hfill : forall d, (0 < sv_fill (size_arg a d))%Z -> is_fill (size_arg a d) = true).
  { intros d L. unfold is_fill. destruct (Z.eqb_spec (sv_fill (size_arg a d)) 0); auto; lia. }
  destruct (C10_fill_tiles l r s S p R Hn H Hw HR) as [rs [u [H1 [H2 H3]]]].
  - apply Forall_forall. intros d Id. destruct (Hd d Id) as [N|[N _]]; auto. now destruct (natural_not_fill _ N).
  - apply Forall_forall. intros d Id. destruct (Hd d Id) as [[_ [-> _]]|[_ N]]; lia.
  - apply Exists_exists. exists c. split; auto.
  - fold a in H2, H3, Hd, Hf.
    assert (Hkid : forall d, In d (stacked p) -> In d (kids p)).
    { intros d Id. unfold stacked in Id. apply filter_In in Id. tauto. }
    assert (Hex : forall d q, In d (stacked p) -> is_natural (size_arg a d) -> outer d S q -> extent a q == demand a d).
    { intros d q Id Nd Hq.
      destruct (C12_child_geometry_partial l r s S p R d Hn H Hw HR (Hkid d Id)) as [q' [st [Hq' [_ HG]]]].
      rewrite (outer_unique _ _ _ _ Hq Hq'). destruct (HG a) as [A _].
      destruct (natural_not_fill _ Nd) as [N1 N2].
      specialize (A (or_intror (or_introl N1))). unfold sized_as in A. rewrite N1 in A.
      destruct Nd as [N3 [_ N4]]. rewrite N3 in A.
      destruct N4 as [N4|[t [N4 N5]]]; rewrite N4 in A; auto.
      destruct A as [[_ A]|[A _]]; [auto | contradiction]. }
    assert (G : forall ds qs, (forall d, In d ds -> In d (stacked p)) -> Forall2 (fun d q => outer d S q) ds qs ->
      Forall2 (fun d q => is_fill (size_arg a d) = true -> extent a q == u * inject_Z (sv_fill (size_arg a d))) ds qs ->
      fold_right Qplus 0 (map (extent a) qs) == u * total (factor a) ds + total (taken a) ds).
    { intros ds. unfold total. induction ds as [|d ds IH]; intros qs I F1 F2; inversion F1 as [|? q ? qs' O F1']; subst;
        cbn [map fold_right]; [ring|].
      inversion F2 as [|? ? ? ? E F2']; subst. rewrite (IH qs'); auto; [|intros; apply I; now right].
      unfold factor at 2, taken at 2. destruct (Hd d (I d (or_introl eq_refl))) as [N|[N L]].
      - destruct (natural_not_fill _ N) as [N1 _]. rewrite N1.
        rewrite (Hex d q (I d (or_introl eq_refl)) N O). destruct N as [_ [-> _]]. change (inject_Z 0) with 0. ring.
      - rewrite (Hfill d L), (E (Hfill d L)). ring. }
    assert (P : forall ds, (forall d, In d ds -> In d (stacked p)) -> 0 <= total (factor a) ds /\
      (In c ds -> 0 < total (factor a) ds)).
    { induction ds as [|d ds IH]; intros I; [split; [unfold total; cbn; lra|intros []]|].
      destruct IH as [IH1 IH2]; [intros; apply I; now right|].
      assert (Fd : 0 <= factor a d).
      { unfold factor. change 0 with (inject_Z 0). rewrite <- Zle_Qle. destruct (Hd d (I d (or_introl eq_refl))) as [[_ [-> _]]|[_ L]]; lia. }
      unfold total in *. cbn [map fold_right]. split; [lra|]. intros [->|Ic]; [|specialize (IH2 Ic); lra].
      assert (0 < factor a c) by (unfold factor; change 0 with (inject_Z 0); rewrite <- Zlt_Qlt; exact Hf). lra. }
    destruct (P (stacked p) (fun _ I => I)) as [_ PF]. specialize (PF Hc). split; [exact PF|].
    assert (Sum := G (stacked p) rs (fun _ I => I) H1 H3).
    apply tiles_sum in H2. unfold stop in H2.
    assert (Eo : extent a o == u * factor a c).
    { clear - H1 H3 Hc Ho Hfill Hf. revert rs H1 H3. induction (stacked p) as [|d ds IH]; intros rs H1 H3; [destruct Hc|].
      inversion H1 as [|? q ? qs O F1]; subst. inversion H3 as [|? ? ? ? E F2]; subst. destruct Hc as [->|Hc].
      - rewrite (outer_unique _ _ _ _ Ho O). apply E. now apply Hfill.
      - eapply IH; eauto. }
    assert (Es : extent a o * total (factor a) (stacked p) == share).
    { unfold share. rewrite Eo. assert (u * total (factor a) (stacked p) == extent a R - total (taken a) (stacked p)) by lra.
      rewrite <- H0. ring. }
    split; [exact Es|]. rewrite <- Es. split; intros L.
    + apply Qmult_le_compat_r; [exact L|lra].
    + apply Qmult_le_r in L; auto.
Qed.
Print Assumptions C14_shares.
Example ex_C14_shares : (forall d, In d (stacked tree_fill) -> is_natural (size_arg Y d) \/
     is_lazy (size_arg Y d) = false /\ (0 < sv_fill (size_arg Y d))%Z) /\
  total (factor Y) (stacked tree_fill) == 3 /\ total (taken Y) (stacked tree_fill) == 10.
Proof.
  split; [|split; reflexivity]. intros d [<-|[<-|[<-|[]]]]; cbn.
  - right. split; [reflexivity|lia].
  - left. repeat split. now left.
  - right. split; [reflexivity|lia].
Qed.
