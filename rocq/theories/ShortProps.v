(** Properties of the shortcuts overlay(), fbox(), sbox(): C93. *)
From Coq Require Import String List ZArith NArith QArith Bool Lia Lqa Arith.
From Verif Require Import Py PyFacts ShowModel LayoutModel LayoutSpec LayoutProofs LayoutProofs2 LayoutProps
  SlideModel SlideSpec SlideProofs SlideProps ListModel ListSpec ShortModel ShortProofs.
Import ListNotations.
Open Scope Q_scope.

(** The arguments with which box() is called: those given, else the defaults of the
    shortcut, else none. *)
Theorem C93_arguments : forall d horizontal n, (n < 4)%nat ->
  (forall a, call_args [] (overlay_kw d) = Ok a ->
     geo n a = match lookup n d with
               | Some v => v
               | None => nth n [ANum 0; ANum 0; AStr (pys "100%"); AStr (pys "100%")] ANone
               end) /\
  (forall a, call_args [] (fbox_kw d) = Ok a ->
     geo n a = match lookup n d with
               | Some v => v
               | None => nth n [ANone; ANone; AStr (pys "fill"); AStr (pys "fill")] ANone
               end) /\
  (forall a, call_args [] (sbox_kw horizontal d) = Ok a ->
     geo n a = match lookup n d with
               | Some v => v
               | None => nth n (if horizontal then [ANone; ANone; ANone; AStr (pys "fill")]
                                else [ANone; ANone; AStr (pys "fill"); ANone]) ANone
               end).
Proof.
  intros d hz n Hn.
  split; [|split]; intros a H; unfold call_args in H; cbn [existsb app] in H;
    rewrite (set_kwargs_geo n _ no_args a Hn H);
    unfold overlay_kw, fbox_kw, sbox_kw; try destruct hz;
    repeat (rewrite lookup_setdefault by (assumption || (cbn; lia)));
    destruct n as [|[|[|[|n]]]]; try lia; cbn [key Nat.eqb value_of nth]; destruct (lookup _ d); reflexivity.
Qed.
Print Assumptions C93_arguments.

(** The layouts of the box [r] and of its new child in any later state of the slide. *)
Lemma child_later : forall w h s0 s s' s'' r a id, new_slide w h = Ok s0 -> reachable s0 s ->
  box_call s r a = (s', Ok id) -> reachable s' s'' ->
  exists b cs l k p c, get_box r (sl_box s) = Some (b, cs) /\ get_layout (b_id b) (sl_layout s) = Some l /\
    new_layout id (ba_layout a) = Ok k /\ within p (sl_layout s'') /\ In c (kids p) /\
    l_id (head p) = b_id b /\ l_id (head c) = id /\ l_horizontal (head p) = l_horizontal (head l) /\
    (forall x, pos_arg x c = pos_arg x k) /\ (forall x, kind (size_arg x c) = kind (size_arg x k)) /\
    NoDup (ids (sl_layout s'')).
Proof.
  intros w h s0 s s' s'' r a id H0 HR HB HL.
  assert (W : wf s) by (eapply reachable_wf; eauto; eapply new_slide_wf; eauto).
  assert (W' : wf s') by (apply (perform_wf s (CBox r a) s' (Ok id)); auto).
  assert (W'' : wf s'') by (eapply reachable_wf; eauto).
  destruct (box_call_placed s r a s' id W HB) as (b & cs & l & k & G & GL & Eb & EK & Ei & P).
  apply (proj2 (reachable_keeps s' s'' W' HL)) in P. destruct P as (p & c & Wp & Hc & Tp & Tc).
  unfold traits in Tp, Tc. injection Tp as Tp1 Tp2 Tp3 Tp4 Tp5 Tp6 Tp7 Tp8 Tp9.
  assert (Tc' := Tc). injection Tc as Tc1 Tc2 Tc3 Tc4 Tc5 Tc6 Tc7 Tc8 Tc9.
  exists b, cs, l, k, p, c. repeat (split; [solve [auto | congruence]|]).
  split; [intros []; cbn; congruence|]. split; [|exact (wf_lnodup s'' W'')].
  intros []; cbn [size_arg]; unfold kind; congruence.
Qed.
Lemma area_of : forall l r st S p, NoDup (ids l) -> set_rect l r st = Ok S -> within p l -> exists R, area p S = Some R.
Proof.
  intros l r st S p Hn H Hw. assert (HL : laid any S l r) by (eapply set_rect_laid_any; eauto).
  destruct (laid_within _ _ _ _ _ Hw HL) as [rp HLp]. destruct p as [hp cs].
  apply laid_inv in HLp as (os & dd & E & _). eauto.
Qed.
(** A child without position argument that has a fill size across the stacking axis spans it. *)
Lemma spans : forall l r st S p R c a, NoDup (ids l) -> set_rect l r st = Ok S -> within p l -> area p S = Some R ->
  In c (kids p) -> a <> stack_axis p -> pos_arg a c = None -> is_fill (size_arg a c) = true ->
  is_lazy (size_arg a c) = false ->
  exists o, outer c S o /\ start a o == start a R /\ extent a o == extent a R.
Proof.
  intros l r st S p R c a Hn H Hw HR Hc Ha Hp Hf Hl.
  destruct (C12_child_geometry_partial l r st S p R c Hn H Hw HR Hc) as (o & st' & Ho & _ & G).
  destruct (G a) as [A B]. rewrite Hp in B. specialize (B Ha). specialize (A (or_intror (or_intror Ha))).
  unfold sized_as in A. rewrite Hf in A. unfold is_lazy in Hl. destruct (sv_lazy (size_arg a c)); [discriminate|].
  exists o. split; [exact Ho|]. unfold stop in B. split; [|exact A]. rewrite A in B. lra.
Qed.

(** overlay(): at all later times, the new box lies on the whole content area of the box it was
    called for, as long as its own content fits. *)
Theorem C93_overlay : forall w h s0 s s' s'' r d id b cs rc st S, new_slide w h = Ok s0 -> reachable s0 s ->
  (forall n, (n < 4)%nat -> lookup n d = None) -> get_box r (sl_box s) = Some (b, cs) ->
  overlay s r d = (s', Ok id) -> reachable s' s'' -> set_rect (sl_layout s'') rc st = Ok S ->
  exists p c R, within p (sl_layout s'') /\ In c (kids p) /\ l_id (head p) = b_id b /\ l_id (head c) = id /\
    area p S = Some R /\
    ((forall a, demand a c <= extent a R) -> exists o, outer c S o /\ req o R).
Proof.
  intros w h s0 s s' s'' r d id b cs rc st S H0 HR HD G HB HL HS. unfold overlay, box_kw in HB.
  destruct (call_args [] (overlay_kw d)) as [a|] eqn:EA; [|discriminate].
  destruct (child_later w h s0 s s' s'' r a id H0 HR HB HL)
    as (b' & cs' & l & k & p & c & G' & GL & EK & Wp & Hc & Ep & Ec & Eh & EP & ES & ND).
  rewrite G in G'. injection G' as <- <-.
  destruct (area_of _ _ _ _ p ND HS Wp) as (R & HA).
  exists p, c, R. repeat (split; [assumption|]). intros HD'.
  apply (C17_overlay_covers (sl_layout s'') rc st S p R c ND HS Wp HA Hc); [|exact HD'].
  assert (GE : forall n, (n < 4)%nat -> geo n a = nth n [ANum 0; ANum 0; AStr (pys "100%"); AStr (pys "100%")] ANone).
  { intros n Hn. destruct (C93_arguments d false n Hn) as (A & _). rewrite (A a EA). now rewrite HD. }
  assert (G0 : a_x (ba_layout a) = ANum 0) by exact (GE 0%nat ltac:(lia)).
  assert (G1 : a_y (ba_layout a) = ANum 0) by exact (GE 1%nat ltac:(lia)).
  assert (G2 : a_width (ba_layout a) = AStr (pys "100%")) by exact (GE 2%nat ltac:(lia)).
  assert (G3 : a_height (ba_layout a) = AStr (pys "100%")) by exact (GE 3%nat ltac:(lia)).
  unfold new_layout in EK. rewrite G0, G1, G2, G3 in EK. vm_compute in EK.
  assert (KP : forall x, pos_arg x k = Some (PosFix 0)) by (intros x; injection EK as <-; destruct x; reflexivity).
  assert (KS : forall x, kind (size_arg x k) = (Some (inject_Z 100 / 100)%Q, 0%Z, None))
    by (intros x; injection EK as <-; destruct x; reflexivity).
  intros x. rewrite EP, KP. specialize (ES x). rewrite KS in ES. unfold kind in ES. injection ES as E1 E2 E3.
  split; [reflexivity|]. unfold is_lazy, is_fill. rewrite E1, E2, E3. split; [reflexivity|]. split; [reflexivity|].
  eexists. split; [reflexivity|]. reflexivity.
Qed.
Print Assumptions C93_overlay.

Lemma ok_inj : forall A (x y : A), Ok x = Ok y -> x = y.
Proof. congruence. Qed.
(** The arguments for one axis determine position and size along it. *)
Lemma axis_args : forall id a k x, new_layout id a = Ok k ->
  opt_pos (match x with X => a_x a | Y => a_y a end) = Ok (pos_arg x k) /\
  parse_size (or_zero (match x with X => a_width a | Y => a_height a end)) = Ok (size_arg x k).
Proof.
  intros id a k x H. unfold new_layout in H.
  destruct (opt_pos (a_x a)) eqn:E1; cbn [rbind] in H; [|discriminate].
  destruct (opt_pos (a_y a)) eqn:E2; cbn [rbind] in H; [|discriminate].
  destruct (parse_size (or_zero (a_width a))) eqn:E3; cbn [rbind] in H; [|discriminate].
  destruct (parse_size (or_zero (a_height a))) eqn:E4; cbn [rbind] in H; [|discriminate].
  injection H as <-. destruct x; split; reflexivity || assumption.
Qed.
(** sbox(): at all later times, the new box spans the box it was called for across the
    direction in which that stacks its children, unless a position or size for this direction
    was given. *)
Theorem C93_sbox : forall w h s0 s s' s'' r d id b cs l rc st S, new_slide w h = Ok s0 -> reachable s0 s ->
  get_box r (sl_box s) = Some (b, cs) -> get_layout (b_id b) (sl_layout s) = Some l ->
  (if l_horizontal (head l) then lookup 1 d = None /\ lookup 3 d = None
   else lookup 0 d = None /\ lookup 2 d = None) ->
  sbox s r d = (s', Ok id) -> reachable s' s'' -> set_rect (sl_layout s'') rc st = Ok S ->
  exists p c R o, within p (sl_layout s'') /\ In c (kids p) /\ l_id (head p) = b_id b /\ l_id (head c) = id /\
    area p S = Some R /\ outer c S o /\ stack_axis p = (if l_horizontal (head l) then X else Y) /\
    start (other (stack_axis p)) o == start (other (stack_axis p)) R /\
    extent (other (stack_axis p)) o == extent (other (stack_axis p)) R.
Proof.
  intros w h s0 s s' s'' r d id b cs l rc st S H0 HR G GL HD HB HL HS. unfold sbox in HB. rewrite G, GL in HB.
  unfold box_kw in HB. destruct (call_args [] (sbox_kw (l_horizontal (head l)) d)) as [a|] eqn:EA; [|discriminate].
  destruct (child_later w h s0 s s' s'' r a id H0 HR HB HL)
    as (b' & cs' & l' & k & p & c & G' & GL' & EK & Wp & Hc & Ep & Ec & Eh & EP & ES & ND).
  rewrite G in G'. injection G' as <- <-. rewrite GL in GL'. injection GL' as <-.
  destruct (area_of _ _ _ _ p ND HS Wp) as (R & HA).
  assert (GE : forall n, (n < 4)%nat -> lookup n d = None -> geo n a =
      nth n (if l_horizontal (head l) then [ANone; ANone; ANone; AStr (pys "fill")]
             else [ANone; ANone; AStr (pys "fill"); ANone]) ANone).
  { intros n Hn E. destruct (C93_arguments d (l_horizontal (head l)) n Hn) as (_ & _ & A). rewrite (A a EA). now rewrite E. }
  assert (SX : stack_axis p = (if l_horizontal (head l) then X else Y)) by (unfold stack_axis; now rewrite Eh).
  assert (K : pos_arg (other (stack_axis p)) k = None /\ kind (size_arg (other (stack_axis p)) k) = (None, 1%Z, None)).
  { destruct (axis_args id (ba_layout a) k (other (stack_axis p)) EK) as [A1 A2]. rewrite SX in A1, A2 |- *.
    destruct (l_horizontal (head l)); destruct HD as [D1 D2]; cbn [other] in *.
    - assert (G1 := GE 1%nat ltac:(lia) D1). assert (G3 := GE 3%nat ltac:(lia) D2). cbn [geo nth] in G1, G3.
      rewrite G1 in A1. rewrite G3 in A2. change (opt_pos ANone) with (Ok (@None pos_value)) in A1. apply ok_inj in A1.
      let v := eval vm_compute in (parse_size (or_zero (AStr (pys "fill")))) in
        change (parse_size (or_zero (AStr (pys "fill")))) with v in A2.
      apply ok_inj in A2. rewrite <- A1, <- A2. auto.
    - assert (G1 := GE 0%nat ltac:(lia) D1). assert (G3 := GE 2%nat ltac:(lia) D2). cbn [geo nth] in G1, G3.
      rewrite G1 in A1. rewrite G3 in A2. change (opt_pos ANone) with (Ok (@None pos_value)) in A1. apply ok_inj in A1.
      let v := eval vm_compute in (parse_size (or_zero (AStr (pys "fill")))) in
        change (parse_size (or_zero (AStr (pys "fill")))) with v in A2.
      apply ok_inj in A2. rewrite <- A1, <- A2. auto. }
  destruct K as [K1 K2].
  assert (ES' := ES (other (stack_axis p))). rewrite K2 in ES'. unfold kind in ES'. injection ES' as E1 E2 E3.
  destruct (spans (sl_layout s'') rc st S p R c (other (stack_axis p)) ND HS Wp HA Hc) as (o & O1 & O2 & O3).
  - destruct (stack_axis p); discriminate.
  - now rewrite EP.
  - unfold is_fill. now rewrite E2.
  - unfold is_lazy. now rewrite E3.
  - exists p, c, R, o. auto 12.
Qed.
Print Assumptions C93_sbox.
(** The box of a list (and of each markdown list) is made by sbox(). *)
Theorem C93_lists : forall s parent b cs l s' id, get_box parent (sl_box (ls_slide s)) = Some (b, cs) ->
  get_layout (b_id b) (sl_layout (ls_slide s)) = Some l ->
  ListModel.sbox s parent = (s', Ok id) -> sbox (ls_slide s) parent [] = (ls_slide s', Ok id).
Proof.
  intros s parent b cs l s' id G GL H. unfold ListModel.sbox in H. rewrite G, GL in H. unfold sbox. rewrite G, GL.
  unfold box_kw, sbox_kw, setdefault, box_with in *. cbn [has_key existsb app] in *.
  destruct (l_horizontal (head l)); unfold call_args in *; cbn [has_key existsb app orb] in *;
    (destruct (set_kwargs _ _) as [a|]; [|discriminate H]); destruct (box_call (ls_slide s) parent a) as [x r];
    inversion H; subst; reflexivity.
Qed.
Print Assumptions C93_lists.

(** fbox(): across the stacking direction the same; along it, the new box gets its part of
    the free space, and alone it covers the whole area. *)
Theorem C93_fbox : forall w h s0 s s' s'' r d id b cs rc st S, new_slide w h = Ok s0 -> reachable s0 s ->
  (forall n, (n < 4)%nat -> lookup n d = None) -> get_box r (sl_box s) = Some (b, cs) ->
  fbox s r d = (s', Ok id) -> reachable s' s'' -> set_rect (sl_layout s'') rc st = Ok S ->
  exists p c R o, within p (sl_layout s'') /\ In c (stacked p) /\ l_id (head p) = b_id b /\ l_id (head c) = id /\
    area p S = Some R /\ outer c S o /\ sv_fill (size_arg (stack_axis p) c) = 1%Z /\
    start (other (stack_axis p)) o == start (other (stack_axis p)) R /\
    extent (other (stack_axis p)) o == extent (other (stack_axis p)) R /\
    (stacked p = [c] -> req o R).
Proof.
  intros w h s0 s s' s'' r d id b cs rc st S H0 HR HD G HB HL HS. unfold fbox, box_kw in HB.
  destruct (call_args [] (fbox_kw d)) as [a|] eqn:EA; [|discriminate].
  destruct (child_later w h s0 s s' s'' r a id H0 HR HB HL)
    as (b' & cs' & l & k & p & c & G' & GL & EK & Wp & Hc & Ep & Ec & Eh & EP & ES & ND).
  rewrite G in G'. injection G' as <- <-.
  destruct (area_of _ _ _ _ p ND HS Wp) as (R & HA).
  assert (GE : forall n, (n < 4)%nat -> geo n a = nth n [ANone; ANone; AStr (pys "fill"); AStr (pys "fill")] ANone).
  { intros n Hn. destruct (C93_arguments d false n Hn) as (_ & A & _). rewrite (A a EA). now rewrite HD. }
  assert (G0 := GE 0%nat ltac:(lia)). assert (G1 := GE 1%nat ltac:(lia)).
  assert (G2 := GE 2%nat ltac:(lia)). assert (G3 := GE 3%nat ltac:(lia)). cbn [geo nth] in G0, G1, G2, G3.
  assert (K : forall x, pos_arg x k = None /\ kind (size_arg x k) = (None, 1%Z, None)).
  { intros x. unfold new_layout in EK. rewrite G0, G1, G2, G3 in EK.
    vm_compute in EK; injection EK as <-; destruct x; split; reflexivity. }
  assert (CX : forall x, pos_arg x c = None /\ sv_fill (size_arg x c) = 1%Z /\ sv_lazy (size_arg x c) = None).
  { intros x. destruct (K x) as [K1 K2]. specialize (ES x). rewrite K2 in ES. unfold kind in ES.
    injection ES as E1 E2 E3. rewrite EP. auto. }
  assert (SK : In c (stacked p)).
  { unfold stacked. apply filter_In. split; [exact Hc|]. now rewrite (proj1 (CX (stack_axis p))). }
  destruct (spans (sl_layout s'') rc st S p R c (other (stack_axis p)) ND HS Wp HA Hc) as (o & O1 & O2 & O3).
  - destruct (stack_axis p); discriminate.
  - apply CX.
  - unfold is_fill. now rewrite (proj1 (proj2 (CX _))).
  - unfold is_lazy. now rewrite (proj2 (proj2 (CX _))).
  - exists p, c, R, o. repeat (split; [assumption|]). split; [apply CX|]. split; [exact O2|]. split; [exact O3|].
    intros SA. destruct (CX (stack_axis p)) as (X1 & X2 & X3).
    destruct (C10_fill_tiles (sl_layout s'') rc st S p R ND HS Wp HA) as (rs & u & F & T & _).
    + rewrite SA. repeat constructor. unfold is_lazy. now rewrite X3.
    + rewrite SA. constructor; [rewrite X2; lia|constructor].
    + rewrite SA. apply Exists_cons_hd. unfold is_fill. now rewrite X2.
    + rewrite SA in F. inversion F as [|? o' ? rs' Ho F']; subst. inversion F'; subst.
      assert (o' = o).
      { destruct Ho as (r1 & A1 & ->). destruct O1 as (r2 & A2 & ->). rewrite A1 in A2. now injection A2 as ->. }
      subst o'. cbn [tiles] in T. destruct T as [T1 T2]. unfold stop in T2.
      unfold req. destruct (stack_axis p); cbn [other start extent] in *; repeat split; lra.
Qed.
Print Assumptions C93_fbox.

(** A slide of 200 x 100 with an overlay, a spread box and a fill box. *)
Definition state1 : slide := fst (overlay blank_slide 0 []).
Definition state2 : slide := fst (sbox state1 0 [Kheight (ANum 50); Kshow (ShowStr (pys "2+"))]).
Definition state3 : slide := fst (fbox state2 2 [Khorizontal true]).
Example C93_ex : snd (overlay blank_slide 0 []) = Ok 1%nat /\
  snd (sbox state1 0 [Kheight (ANum 50); Kshow (ShowStr (pys "2+"))]) = Ok 2%nat /\
  snd (fbox state2 2 [Khorizontal true]) = Ok 3%nat /\
  exists S, set_rect (sl_layout state3) screen empty_store = Ok S /\
    option_map (fun r => (Qred (rx r), Qred (rw r), Qred (rh r))) (st_rect S 1%nat) = Some (0, 200, 100) /\
    option_map (fun r => (Qred (rx r), Qred (rw r), Qred (rh r))) (st_rect S 2%nat) = Some (0, 200, 50) /\
    option_map (fun r => (Qred (rx r), Qred (rw r), Qred (rh r))) (st_rect S 3%nat) = Some (0, 200, 50).
Proof.
  split; [vm_compute; reflexivity|]. split; [vm_compute; reflexivity|]. split; [vm_compute; reflexivity|].
  eexists. split; [vm_compute; reflexivity|]. vm_compute. auto.
Qed.
