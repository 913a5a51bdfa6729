(** Further proofs about the layout model. *)
From Coq Require Import List ZArith QArith Qfield Bool Lia Lqa Setoid.
From Verif Require Import Py PyFacts LayoutModel LayoutSpec LayoutProofs.
Import ListNotations.
Open Scope Q_scope.

Lemma chain_weaken : forall (E E' : store -> Prop), (forall s, E s -> E' s) ->
  forall hor r fu cs dd os dd',
  chain E hor r fu cs dd os dd' -> chain E' hor r fu cs dd os dd'.
Proof. induction 2; econstructor; eauto. Qed.

(** A run of set_rect lays the tree out, whatever the store was. *)
Definition any (_ : store) : Prop := True.

Lemma set_rect_laid_any : forall l r s s' S,
  NoDup (ids l) -> set_rect l r s = Ok s' ->
  (forall i, In i (ids l) -> st_rect S i = st_rect s' i) -> laid any S l r.
Proof.
  induction l as [h cs IH] using layout_rect. intros r s s' S Hn H HR.
  assert (Hself := set_rect_self _ _ _ _ Hn H). unfold area in Hself. cbn [head] in Hself.
  apply set_rect_inv in H. destruct H as [os [dd H]].
  rewrite ids_node in *. inversion Hn as [|? ? Hni Hn']; subst.
  assert (HR' : forall i, In i (ids_list cs) -> st_rect S i = st_rect s' i)
    by (intros; apply HR; now right).
  assert (HRent : st_rect (entered h (content h r) s) (l_id h) = Some (content h r))
    by (rewrite entered_rect, Nat.eqb_refl; reflexivity).
  assert (Hmain : chain (at_box any h (content h r)) (l_horizontal h) (content h r)
      (snd (main_axis (Node h cs) (content h r))) cs
      (fst (main_axis (Node h cs) (content h r))) os dd /\
      Forall2 (laid any S) cs os).
  { clear Hn HR Hself. revert H HRent.
    generalize (content h r), (snd (main_axis (Node h cs) (content h r))),
      (fst (main_axis (Node h cs) (content h r))), (entered h (content h r) s).
    intros R fu dd0 s0 H HRent.
    induction H as [|c cs' dd1 s1 o dd' s2 os dd2 s3 H1 H2 H3 IH2].
    - split; constructor.
    - inversion IH as [|? ? HIc HI']; subst.
      unfold ids_list in Hn', HR', Hni. simpl in Hn', HR', Hni.
      apply NoDup_app_inv in Hn'. destruct Hn' as [HNa [HNb HNc]].
      destruct IH2 as [C1 C2]; auto.
      + intro. apply Hni. apply in_or_app. now right.
      + intros i Hi. apply HR'. apply in_or_app. now right.
      + rewrite (set_rect_frame _ _ _ _ H2); auto. intro. apply Hni. apply in_or_app. now left.
      + split; [eapply ch_cons; [split; [exact I | exact HRent] | exact H1 | exact C1]|]. constructor; auto.
        eapply HIc; eauto. intros i Hi. rewrite HR' by (apply in_or_app; now left).
        eapply places_frame; eauto. }
  destruct Hmain. econstructor; eauto. rewrite HR; auto. now left.
Qed.

Lemma laid_area : forall E S l r R, laid E S l r -> area l S = Some R ->
  R = content (head l) r.
Proof.
  intros E S [h cs] r R H HR. apply laid_inv in H. destruct H as [os [dd [H _]]].
  unfold area in HR. simpl in *. congruence.
Qed.

Lemma Forall2_In_l : forall (A B : Type) (R : A -> B -> Prop) l l' x,
  Forall2 R l l' -> In x l -> exists y, In (x, y) (combine l l') /\ R x y.
Proof.
  induction 1 as [|a b l l' H HF IH]; intro Hi; [destruct Hi|].
  destruct Hi as [->|Hi].
  - exists b. split; auto. now left.
  - destruct (IH Hi) as [y [Hy HR]]. exists y. split; auto. now right.
Qed.

(** ** C12: geometry of each child *)
Lemma sized_fits : forall a c R, is_lazy (size_arg a c) = false ->
  is_fill (size_arg a c) = false ->
  match sv_ratio (size_arg a c) with
  | Some q => (q == 0 /\ fits a (extent a R) c == demand a c) \/
              (~ q == 0 /\ fits a (extent a R) c == qmax (extent a R * q) (demand a c))
  | None => fits a (extent a R) c == demand a c
  end.
Proof.
  intros a c R Hl Hf. unfold fits, ratio_true. destruct (rq_fields a c) as [H1 _].
  rewrite H1. destruct (sv_ratio (size_arg a c)) as [q|].
  - destruct (qtrue q) eqn:Eq.
    + right. split; [now apply qtrue_true|]. apply qmax_comp; [reflexivity|].
      apply rq_demand.
    + left. split; [now apply qtrue_false | apply rq_demand].
  - apply rq_demand.
Qed.

Lemma grow_alloc_req : forall E S c o, laid E S c o ->
  exists o', outer c S o' /\ req o' o.
Proof. exact laid_outer. Qed.

Theorem child_geometry : forall E S l r0 R c,
  laid E S l r0 -> area l S = Some R -> In c (kids l) ->
  exists o st, outer c S o /\ at_box E (head l) R st /\ forall a,
    (is_lazy (size_arg a c) = true \/ is_fill (size_arg a c) = false \/ a <> stack_axis l ->
       sized_as a c R o st) /\
    match pos_arg a c with
    | Some p => ~ skewed a l p -> placed_at a p R o st
    | None => a <> stack_axis l -> start a o - start a R == stop a R - stop a o
    end.
Proof.
  intros E S [h cs] r0 R c H HR Hc.
  assert (ER := laid_area _ _ _ _ _ H HR). cbn [head] in ER.
  apply laid_inv in H. destruct H as [os [dd [_ [Hch HF]]]]. rewrite <- ER in Hch.
  cbn [kids] in Hc.
  revert Hch Hc. generalize (snd (main_axis (Node h cs) R)) as fu.
  generalize (fst (main_axis (Node h cs) R)) as dd0. intros dd0 fu Hch Hc.
  assert (Hex : exists o st ddc ddc', at_box E h R st /\
            child_rect (l_horizontal h) R fu c ddc st = Ok (o, ddc') /\ laid E S c o).
  { clear - Hch Hc HF. induction Hch as [|d cs' dd1 st o dd' os dd2 HE H1 H3 IH];
      [destruct Hc|]. inversion HF; subst. destruct Hc as [->|Hc].
    - exists o, st, dd1, dd'. auto.
    - apply IH; auto. }
  destruct Hex as [o [st [ddc [ddc' [HE [Hcr Hlaid]]]]]].
  apply child_rect_inv in Hcr. destruct Hcr as [Hsz [Hpos _]].
  destruct (laid_outer _ _ _ _ Hlaid) as [o' [Ho' Hreq]].
  exists o', st. split; auto. split; auto. intro a.
  assert (Ee := req_extent a _ _ Hreq). assert (Es := req_start a _ _ Hreq).
  specialize (Hsz a). specialize (Hpos a). split.
  - intro Hcase. unfold sized_as.
    destruct (sv_lazy (size_arg a c)) as [f|] eqn:El.
    + unfold size_compute in Hsz. destruct (rq_fields a c) as [_ [_ H3]].
      rewrite H3, El in Hsz. exists (extent a o). split; auto.
    + assert (Hl : is_lazy (size_arg a c) = false) by (unfold is_lazy; now rewrite El).
      apply size_compute_static in Hsz; auto.
      destruct (is_fill (size_arg a c)) eqn:Ef.
      * destruct Hcase as [Hcase|[Hcase|Hcase]]; try congruence.
        rewrite Ee, Hsz. unfold fill_for, along. unfold stack_axis in Hcase. cbn in Hcase.
        destruct a, (l_horizontal h); try reflexivity; congruence.
      * assert (Hfits := sized_fits a c R Hl Ef). rewrite <- Hsz in Hfits.
        destruct (sv_ratio (size_arg a c)) as [q|].
        -- destruct Hfits as [[Q1 Q2]|[Q1 Q2]]; [left|right]; split; auto; lra.
        -- lra.
  - destruct (pos_arg a c) as [p|].
    + intro Hsk. unfold placed_at, skewed, stack_axis in *. cbn in Hsk.
      assert (Efull : (if l_horizontal h then rw R else extent a R) = extent a R \/
                      match p with PosRatio _ | PosAlign _ => False | _ => True end).
      { destruct (l_horizontal h); [|now left]. destruct a; [now left|].
        destruct p; auto; elim Hsk; auto. }
      destruct p as [q|q|q|f|]; cbn [pos_compute] in Hpos.
      * injection Hpos as Hpos. rewrite Es, <- Hpos. reflexivity.
      * destruct Efull as [Efull|[]]. rewrite Efull in Hpos. injection Hpos as Hpos.
        rewrite Es, <- Hpos. reflexivity.
      * destruct Efull as [Efull|[]]. rewrite Efull in Hpos. injection Hpos as Hpos.
        rewrite Es, <- Hpos, Ee. reflexivity.
      * exists (start a o). auto.
      * discriminate.
    + intro Ha. unfold stack_axis in Ha. cbn in Ha.
      assert (Eal : along a (l_horizontal h) = false)
        by (destruct a, (l_horizontal h); try reflexivity; congruence).
      rewrite Eal in Hpos. unfold stop. rewrite Es, Ee, Hpos. field.
Qed.

(** ** C13: natural and percentage boxes hold their content *)
Lemma demand_own : forall a l, sv_min (size_arg a l) <= demand a l.
Proof. intros a [h cs]. rewrite demand_eq. apply qmax_l. Qed.

Lemma demand_content : forall a h cs,
  content_demand a (l_horizontal h) (map (demand a) (stacked (Node h cs)))
  + pad a (Node h cs) <= demand a (Node h cs).
Proof. intros a h cs. rewrite demand_eq. apply qmax_r. Qed.

Lemma content_extent : forall a h cs r, extent a (content h r) ==
  extent a r - pad a (Node h cs).
Proof. intros [] h cs r; unfold content, shrink, pad; simpl; ring. Qed.

Lemma content_start : forall a h cs r, start a (content h r) ==
  start a r + pad_before a (Node h cs).
Proof. intros [] h cs r; unfold content, shrink; simpl; ring. Qed.

Lemma in_sum : forall l, Forall (fun q => 0 <= q) l -> 0 <= fold_right Qplus 0 l /\
  forall x, In x l -> x <= fold_right Qplus 0 l.
Proof.
  induction 1 as [|q l H HF [IH1 IH2]]; simpl; split; try lra.
  - intros x [].
  - intros x [->|Hx]; [lra|]. apply IH2 in Hx. lra.
Qed.

Lemma cross_demand : forall a hor ds d, along a hor = false -> In d ds ->
  d <= content_demand a hor ds.
Proof.
  intros a hor ds d Ha Hi. unfold content_demand. rewrite Ha.
  destruct ds as [|d0 ds]; [destruct Hi|].
  destruct (fold_right_qmax_ge ds d0) as [A1 [A2 _]].
  destruct Hi as [->|Hi]; auto.
Qed.

Lemma natural_fits : forall a c full, is_natural (size_arg a c) ->
  fits a full c == demand a c.
Proof.
  intros a c full [H1 [H2 H3]]. unfold fits, ratio_true.
  destruct (rq_fields a c) as [R1 _]. rewrite R1.
  destruct H3 as [->|[q [-> Hq]]]; [apply rq_demand|].
  apply qtrue_false in Hq. rewrite Hq. apply rq_demand.
Qed.

Lemma natural_not_fill : forall v, is_natural v -> is_fill v = false /\ is_lazy v = false.
Proof.
  intros v [H1 [H2 _]]. unfold is_fill, is_lazy. rewrite H1, H2. auto.
Qed.

Theorem holds_content : forall E S l r0 c o,
  laid E S l r0 -> In c (kids l) -> outer c S o ->
  forall a, is_lazy (size_arg a c) = false -> is_fill (size_arg a c) = false ->
  sv_min (size_arg a c) <= extent a o /\ demand a c <= extent a o.
Proof.
  intros E S l r0 c o H Hc Ho a Hl Hf.
  destruct l as [h cs]. assert (H' := H). apply laid_inv in H'.
  destruct H' as [os [dd [HR _]]].
  destruct (child_geometry E S (Node h cs) r0 (content h r0) c) as [o' [st [Ho' [_ HG]]]]; auto.
  rewrite (outer_unique _ _ _ _ Ho Ho').
  destruct (HG a) as [Hs _]. unfold sized_as in Hs.
  assert (Hd : demand a c <= extent a o').
  { assert (El : sv_lazy (size_arg a c) = None)
      by (unfold is_lazy in Hl; now destruct (sv_lazy (size_arg a c))).
    rewrite El, Hf in Hs.
    destruct (sv_ratio (size_arg a c)) as [q|].
    - destruct Hs as [[_ Hs]|[_ Hs]]; [auto | lra | ].
      rewrite Hs. apply qmax_r.
    - rewrite Hs; [lra | auto]. }
  split; auto. assert (Hm := demand_own a c). lra.
Qed.

(** ** C16: containment in natural trees *)
Lemma natural_kid : forall h cs c, natural_inside (Node h cs) -> In c cs ->
  natural_inside c.
Proof.
  intros h cs c H Hi p d Hp Hd. apply (H p d); auto. eapply within_kid; eauto.
Qed.

Lemma filter_all : forall (A : Type) (f : A -> bool) l,
  Forall (fun x => f x = true) l -> filter f l = l.
Proof. induction 1 as [|x l H HF IH]; simpl; auto. rewrite H. now rewrite IH. Qed.

Lemma natural_stacked : forall h cs, (forall d, In d cs -> natural_box d) ->
  stacked (Node h cs) = cs.
Proof.
  intros h cs H. unfold stacked. cbn [kids]. apply filter_all. apply Forall_forall.
  intros d Hd. destruct (H d Hd (stack_axis (Node h cs))) as [E _]. now rewrite E.
Qed.

Lemma tiles_inside : forall a rs p q, tiles a rs p q ->
  Forall (fun r => 0 <= extent a r) rs ->
  p <= q /\ Forall (fun r => p <= start a r /\ stop a r <= q) rs.
Proof.
  induction rs as [|r rs IH]; simpl; intros p q Ht HF.
  - split; [lra | constructor].
  - destruct Ht as [H1 H2]. inversion HF; subst. destruct (IH _ _ H2) as [H5 H6]; auto.
    assert (Es : stop a r == p + extent a r) by (unfold stop; lra).
    split; [lra|]. constructor.
    + split; lra.
    + eapply Forall_impl; [|exact H6]. simpl. intros x [Hx1 Hx2]. split; lra.
Qed.

(** In a tiling, earlier rectangles end before later ones start. *)
Lemma tiles_ordered : forall a rs p q, tiles a rs p q ->
  Forall (fun r => 0 <= extent a r) rs ->
  forall i j ri rj, (i < j)%nat -> nth_error rs i = Some ri -> nth_error rs j = Some rj ->
  stop a ri <= start a rj.
Proof.
  induction rs as [|r rs IH]; intros p q Ht HF i j ri rj Hij Hi Hj.
  - destruct i; discriminate.
  - destruct Ht as [H1 H2]. inversion HF; subst. destruct j as [|j]; [lia|]. simpl in Hj.
    destruct i as [|i].
    + simpl in Hi. inversion Hi; subst.
      destruct (tiles_inside _ _ _ _ H2 H4) as [_ HI].
      rewrite Forall_forall in HI. apply nth_error_In in Hj. now apply HI.
    + simpl in Hi. apply (IH _ _ H2 H4 i j); auto. lia.
Qed.

Lemma sum_fixed : forall a full cs, (forall d, In d cs -> natural_box d) ->
  fixed_sum a full cs == fold_right Qplus 0 (map (demand a) cs).
Proof.
  intros a full. induction cs as [|c cs IH]; simpl; intros H; [lra|].
  rewrite IH by auto. destruct (H c (or_introl eq_refl) a) as [_ [Hn _]].
  destruct (natural_not_fill _ Hn) as [-> _]. rewrite natural_fits; auto. lra.
Qed.

Lemma natural_fill_sum : forall a cs, (forall d, In d cs -> natural_box d) ->
  fill_sum a cs = 0%Z.
Proof.
  intros a. induction cs as [|c cs IH]; simpl; intros H; auto.
  rewrite IH by auto. destruct (H c (or_introl eq_refl) a) as [_ [[_ [Hn _]] _]]. lia.
Qed.

Lemma demand_nonneg : forall a c, natural_box c -> 0 <= demand a c.
Proof.
  intros a c H. destruct (H a) as [_ [_ [Hm _]]]. assert (Hd := demand_own a c). lra.
Qed.

Lemma natural_kids_inside : forall E S h cs r0,
  laid E S (Node h cs) r0 -> (forall d, In d cs -> natural_box d) ->
  (forall a, demand a (Node h cs) <= extent a r0) ->
  forall os dd,
  chain (at_box E h (content h r0)) (l_horizontal h) (content h r0)
      (snd (main_axis (Node h cs) (content h r0))) cs
      (fst (main_axis (Node h cs) (content h r0))) os dd ->
  Forall2 (fun c o => (forall a, extent a o == demand a c) /\ inside o (content h r0)) cs os.
Proof.
  intros E S h cs r0 Hlaid Hnat Hbig os dd Hch.
  set (R := content h r0) in *.
  destruct (main_axis_spec h cs R) as [Hp _].
  revert Hch Hp. generalize (snd (main_axis (Node h cs) R)) as fu.
  generalize (fst (main_axis (Node h cs) R)) as dd0. intros dd0 fu Hch Hp.
  assert (Hroom : forall a, content_demand a (l_horizontal h) (map (demand a) cs) <= extent a R).
  { intro a. assert (Hd := demand_content a h cs). rewrite natural_stacked in Hd by auto.
    unfold R. rewrite (content_extent a h cs). specialize (Hbig a). lra. }
  assert (Hsize : forall a, Forall2 (fun c o => extent a o == demand a c) cs os).
  { intro a. assert (Hs := chain_sizes _ _ _ _ _ _ _ _ Hch a).
    clear - Hs Hnat. induction Hs as [|c o cs0 os0 H Hs IH]; constructor.
    - destruct (Hnat c (or_introl eq_refl) a) as [_ [Hn _]].
      destruct (natural_not_fill _ Hn) as [H1 H2]. rewrite H by auto. rewrite H1.
      now apply natural_fits.
    - apply IH. intros. apply Hnat. now right. }
  set (a := main (l_horizontal h)) in *.
  assert (Hm : filter (is_managed (l_horizontal h)) cs = cs).
  { rewrite <- (stacked_managed h cs). now apply natural_stacked. }
  assert (Ht := chain_tiles _ _ _ _ _ _ _ _ Hch). fold a in Ht.
  assert (Hlen := chain_length _ _ _ _ _ _ _ _ Hch).
  assert (Eos : map snd (stacked_of (l_horizontal h) (combine cs os)) = os).
  { unfold stacked_of. rewrite filter_all.
    - clear - Hlen. revert os Hlen. induction cs as [|c cs IH]; intros [|o os] H; simpl in *;
        try discriminate; auto. f_equal. apply IH. lia.
    - apply Forall_forall. intros [c o] Hi. simpl. apply in_combine_l in Hi.
      rewrite <- Hm in Hi. now apply filter_In in Hi. }
  rewrite Eos in Ht.
  assert (Hnn : Forall (fun r => 0 <= extent a r) os).
  { specialize (Hsize a). clear - Hsize Hnat.
    induction Hsize as [|c o cs0 os0 H Hs IH]; constructor.
    - rewrite H. apply demand_nonneg. apply Hnat. now left.
    - apply IH. intros. apply Hnat. now right. }
  destruct (tiles_inside _ _ _ _ Ht Hnn) as [_ Hin].
  assert (Hq := tiles_sum _ _ _ _ Ht).
  assert (Esum : fold_right Qplus 0 (map (extent a) os) ==
                 fold_right Qplus 0 (map (demand a) cs)).
  { specialize (Hsize a). clear - Hsize. induction Hsize as [|c o cs0 os0 H Hs IH]; simpl; lra. }
  rewrite Esum in Hq.
  fold a in Hp. rewrite Hm in Hp.
  rewrite natural_fill_sum in Hp by auto. simpl in Hp.
  rewrite sum_fixed in Hp by auto.
  assert (Hra := Hroom a). unfold content_demand in Hra.
  assert (Eal : along a (l_horizontal h) = true) by apply along_main.
  rewrite Eal in Hra.
  assert (Hmainin : Forall (fun o => start a R <= start a o /\ stop a o <= stop a R) os).
  { eapply Forall_impl; [|exact Hin]. simpl. intros o [H1 H2].
    unfold stop at 2. 
    assert (Eh : (extent a R - fold_right Qplus 0 (map (demand a) cs)) / 2 * 2 ==
                 extent a R - fold_right Qplus 0 (map (demand a) cs)) by field.
    split; lra. }
  (* the cross axis *)
  assert (Hcross : Forall2 (fun c o => start (other a) R <= start (other a) o /\
                                       stop (other a) o <= stop (other a) R) cs os).
  { assert (Hoth : along (other a) (l_horizontal h) = false)
      by (unfold a; destruct (l_horizontal h); reflexivity).
    assert (Hpos : Forall2 (fun c o => start (other a) o =
        start (other a) R + (extent (other a) R - extent (other a) o) / 2) cs os).
    { clear - Hch Hnat Hoth. induction Hch as [|c cs0 dd1 st o dd' os0 dd2 HE H1 H3 IH];
        constructor.
      - apply child_rect_inv in H1. destruct H1 as [_ [H1 _]]. specialize (H1 (other a)).
        destruct (Hnat c (or_introl eq_refl) (other a)) as [Hn _].
        rewrite Hn, Hoth in H1. exact H1.
      - apply IH. intros. apply Hnat. now right. }
    specialize (Hsize (other a)). specialize (Hroom (other a)).
    assert (Hle : Forall (fun c => demand (other a) c <= extent (other a) R) cs).
    { apply Forall_forall. intros c Hc.
      assert (demand (other a) c <=
              content_demand (other a) (l_horizontal h) (map (demand (other a)) cs)).
      { apply cross_demand; auto. now apply in_map. }
      lra. }
    clear - Hpos Hsize Hle. induction Hpos as [|c o cs0 os0 H Hs IH]; constructor.
    - inversion Hsize; subst. inversion Hle; subst. unfold stop. rewrite H.
      split.
      + assert (0 <= (extent (other a) R - extent (other a) o) / 2); [|lra].
        apply Qle_shift_div_l; lra.
      + assert (0 <= (extent (other a) R - extent (other a) o) / 2) by
          (apply Qle_shift_div_l; lra).
        assert ((extent (other a) R - extent (other a) o) / 2 * 2 ==
                extent (other a) R - extent (other a) o) by field.
        lra.
    - inversion Hsize; subst. inversion Hle; subst. apply IH; auto. }
  clear - Hsize Hmainin Hcross.
  assert (HX := Hsize X). assert (HY := Hsize Y). clear Hsize.
  induction Hcross as [|c o cs0 os0 H Hs IH]; constructor.
  - inversion HX; subst. inversion HY; subst. inversion Hmainin; subst. split.
    + intros []; auto.
    + intros b. destruct a, b; simpl in *; auto.
  - inversion HX; subst. inversion HY; subst. inversion Hmainin; subst. apply IH; auto.
Qed.

Theorem natural_containment : forall E S l r0,
  laid E S l r0 -> natural_inside l -> (forall a, demand a l <= extent a r0) ->
  forall p, within p l -> exists R, area p S = Some R /\
    exists os, Forall2 (fun d o => outer d S o /\ inside o R) (kids p) os /\
    (forall i j oi oj, (i < j)%nat -> nth_error os i = Some oi -> nth_error os j = Some oj ->
       stop (stack_axis p) oi <= start (stack_axis p) oj).
Proof.
  intros E S l r0 Hl Hn Hb p Hw. revert r0 Hl Hn Hb.
  induction Hw as [l|p d h cs Hi Hw IH]; intros r0 Hl Hn Hb.
  - destruct l as [h cs]. assert (Hl' := Hl). apply laid_inv in Hl'.
    destruct Hl' as [os [dd [HR [Hch HF]]]].
    assert (Hk : forall d, In d cs -> natural_box d)
      by (intros d Hd; apply (Hn (Node h cs) d); auto; constructor).
    assert (Hins := natural_kids_inside _ _ _ _ _ Hl Hk Hb _ _ Hch).
    exists (content h r0). split; auto. cbn [kids].
    assert (Hos : exists os', Forall2 (fun d o => outer d S o) cs os' /\ Forall2 req os' os).
    { clear - HF. induction HF as [|c o cs os H HF IH].
      - exists []. split; constructor.
      - destruct IH as [os' [I1 I2]]. destruct (laid_outer _ _ _ _ H) as [o' [O1 O2]].
        exists (o' :: os'). split; constructor; auto. }
    destruct Hos as [os' [Ho1 Ho2]]. exists os'. split.
    + clear - Ho1 Ho2 Hins. revert os Ho2 Hins.
      induction Ho1 as [|c o' cs os' H Hs IH]; intros os Ho2 Hins; constructor.
      * inversion Ho2 as [|? o ? os0 Hreq]; subst. inversion Hins as [|? ? ? ? [_ Hin] _]; subst.
        split; auto. intro a. specialize (Hin a). unfold stop in *.
        rewrite (req_start a _ _ Hreq), (req_extent a _ _ Hreq). exact Hin.
      * inversion Ho2 as [|? o ? os0 Hreq Hreqs]; subst.
        inversion Hins as [|? ? ? ? _ Hins']; subst. eapply IH; eauto.
    + assert (Ht := chain_tiles _ _ _ _ _ _ _ _ Hch).
      assert (Hlen := chain_length _ _ _ _ _ _ _ _ Hch).
      assert (Eos : map snd (stacked_of (l_horizontal h) (combine cs os)) = os).
      { unfold stacked_of. rewrite filter_all.
        - clear - Hlen. revert os Hlen.
          induction cs as [|c cs IH]; intros [|o os] H; simpl in *;
            try discriminate; auto. f_equal. apply IH. lia.
        - apply Forall_forall. intros [c o] Hi. simpl. apply in_combine_l in Hi.
          destruct (Hk c Hi (main (l_horizontal h))) as [Ep _].
          unfold is_managed, main, pos_arg in *. destruct (l_horizontal h); now rewrite Ep. }
      rewrite Eos in Ht.
      assert (Hnn : Forall (fun r => 0 <= extent (main (l_horizontal h)) r) os').
      { clear - Ho2 Hins Hk. revert os' Ho2.
        induction Hins as [|c o cs os [H _] Hins IH]; intros os' Ho2;
          inversion Ho2 as [|? ? ? ? Hreq]; subst; constructor.
        - rewrite (req_extent _ _ _ Hreq), H. apply demand_nonneg. apply Hk. now left.
        - apply IH; auto. intros. apply Hk. now right. }
      eapply tiles_ordered; [eapply tiles_req; eauto | exact Hnn].
  - assert (Hl' := Hl). apply laid_inv in Hl'. destruct Hl' as [os [dd [HR [Hch HF]]]].
    assert (Hk : forall d, In d cs -> natural_box d)
      by (intros d' Hd; apply (Hn (Node h cs) d'); auto; constructor).
    assert (Hins := natural_kids_inside _ _ _ _ _ Hl Hk Hb _ _ Hch).
    destruct (Forall2_In_l _ _ _ _ _ _ HF Hi) as [o [Hio Hlo]].
    assert (Hino := Forall2_combine _ _ _ _ _ Hins _ _ Hio). destruct Hino as [Hex _].
    apply (IH o); auto.
    + eapply natural_kid; eauto.
    + intro a. rewrite Hex. lra.
Qed.
