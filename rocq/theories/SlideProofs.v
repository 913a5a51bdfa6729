(** Lemmas about slides. *)
From Coq Require Import List ZArith NArith QArith Bool Lia Permutation Sorted.
From Verif Require Import Py PyFacts ShowModel ShowSpec ShowProofs LayoutModel LayoutSpec
  LayoutProofs SlideModel SlideSpec.
Import ListNotations.
Open Scope Z_scope.

Lemma node_ind2 : forall P : node -> Prop,
  (forall i z, P (NItem i z)) ->
  (forall b cs, Forall P cs -> P (NBox b cs)) -> forall n, P n.
Proof.
  intros P H1 H2. fix IH 1. intros [i z|b cs]; [apply H1|]. apply H2.
  induction cs as [|c cs IHcs]; constructor; auto.
Qed.

(** ** Contexts *)
Lemma fill_app : forall C1 C2 n, fill (C1 ++ C2) n = fill C2 (fill C1 n).
Proof. induction C1 as [|[[b pre] post] C1 IH]; intros; simpl; auto. Qed.

(** A list valued measure of trees that collects something from each box before and after
    its children. *)
Section Measure.
  Context {A : Type} (m : node -> list A) (hb tb : bhead -> list A).
  Hypothesis Hm : forall b cs, m (NBox b cs) = hb b ++ flat_map m cs ++ tb b.

  Fixpoint before (C : context) : list A :=
    match C with
    | [] => []
    | (b, pre, _) :: C' => before C' ++ hb b ++ flat_map m pre
    end.
  Fixpoint after (C : context) : list A :=
    match C with
    | [] => []
    | (b, _, post) :: C' => flat_map m post ++ tb b ++ after C'
    end.

  Lemma measure_fill : forall C n, m (fill C n) = before C ++ m n ++ after C.
  Proof.
    induction C as [|[[b pre] post] C IH]; intro n; simpl; [now rewrite app_nil_r|].
    rewrite IH, Hm, flat_map_app. simpl. now rewrite <- !app_assoc.
  Qed.
End Measure.

Lemma node_ids_eq : forall b cs, node_ids (NBox b cs) = [b_id b] ++ flat_map node_ids cs ++ [].
Proof. intros. simpl. now rewrite app_nil_r. Qed.
Definition ids_fill := measure_fill node_ids (fun b => [b_id b]) (fun _ => []) node_ids_eq.

Fixpoint boxes (n : node) : list bhead :=
  match n with NItem _ _ => [] | NBox b cs => b :: flat_map boxes cs end.
Lemma boxes_eq : forall b cs, boxes (NBox b cs) = [b] ++ flat_map boxes cs ++ [].
Proof. intros. simpl. now rewrite app_nil_r. Qed.
Definition boxes_fill := measure_fill boxes (fun b => [b]) (fun _ => []) boxes_eq.

Lemma box_in_boxes : forall n b, box_in b n <-> In b (boxes n).
Proof.
  intro n. induction n as [i z|d cs IH] using node_ind2; intro b.
  - split; intro H; [inversion H | destruct H].
  - simpl. rewrite in_flat_map. split.
    + intro H. inversion H; subst; [now left|]. right.
      match goal with H : In ?c cs |- _ => exists c; split; auto;
        rewrite Forall_forall in IH; now apply (IH c H) end.
    + intros [->|[c [Hc Hb]]]; [constructor|]. apply (bi_kid _ _ _ c); auto.
      rewrite Forall_forall in IH. now apply (IH c Hc).
Qed.

Lemma traverse_boxes : forall n, traverse n = map (fun b => min_steps (b_show b)) (boxes n).
Proof.
  intro n. induction n as [i z|b cs IH] using node_ind2; simpl; auto. f_equal.
  induction IH as [|c cs Hc _ IHcs]; simpl; auto. now rewrite map_app, Hc, IHcs.
Qed.

Lemma get_box_found : forall r n b cs, get_box r n = Some (b, cs) ->
  exists C, found n r C b cs.
Proof.
  intros r n. induction n as [i z|d ds IH] using node_ind2; intros b cs H; [discriminate|].
  cbn [get_box] in H. destruct (Nat.eqb_spec (b_id d) r) as [E|E].
  { injection H as <- <-. exists []. split; auto. }
  destruct (existsb _ ds) eqn:Ee.
  { injection H as <- <-. exists []. split; auto. right.
    apply existsb_exists in Ee. destruct Ee as [[j z|] [Hin Hj]]; [|discriminate].
    apply Nat.eqb_eq in Hj. subst. eauto. }
  assert (Hx : exists pre c post, ds = pre ++ c :: post /\ get_box r c = Some (b, cs)).
  { clear IH E Ee. induction ds as [|c ds IHds]; [discriminate|].
    destruct (get_box r c) as [x|] eqn:Eg.
    - injection H as ->. exists [], c, ds. auto.
    - destruct (IHds H) as [pre [c' [post [-> Hc]]]]. exists (c :: pre), c', post. auto. }
  destruct Hx as [pre [c [post [-> Hc]]]].
  assert (IHc : forall b cs, get_box r c = Some (b, cs) -> exists C, found c r C b cs).
  { rewrite Forall_forall in IH. apply IH. apply in_elt. }
  destruct (IHc _ _ Hc) as [C [-> Hr]].
  exists (C ++ [(d, pre, post)]). split; auto. now rewrite fill_app.
Qed.

Lemma upd_box_absent : forall i f n, ~ In i (node_ids n) -> upd_box i f n = n.
Proof.
  intros i f n. induction n as [j z|b cs IH] using node_ind2; intro H; auto.
  simpl in *. destruct (Nat.eqb_spec (b_id b) i) as [E|E]; [subst; tauto|]. f_equal.
  assert (H' : ~ In i (flat_map node_ids cs)) by tauto. clear H E.
  induction IH as [|c cs Hc _ IHcs]; simpl; auto. simpl in H'.
  rewrite in_app_iff in H'. rewrite Hc by tauto. rewrite IHcs by tauto. auto.
Qed.

Lemma map_upd_absent : forall i f cs, ~ In i (flat_map node_ids cs) ->
  map (upd_box i f) cs = cs.
Proof.
  induction cs as [|c cs IH]; simpl; auto. intro H. rewrite in_app_iff in H.
  rewrite upd_box_absent, IH by tauto. auto.
Qed.

Lemma upd_box_fill : forall f C b cs, NoDup (node_ids (fill C (NBox b cs))) ->
  upd_box (b_id b) f (fill C (NBox b cs)) = fill C (f b cs).
Proof.
  intros f C. 
  assert (G : forall i n n', In i (node_ids n) -> upd_box i f n = n' ->
    NoDup (node_ids (fill C n)) -> upd_box i f (fill C n) = fill C n').
  { induction C as [|[[d pre] post] C IH]; intros i n n' Hi Hn Hd; simpl; auto.
    simpl in Hd. apply IH; auto.
    - simpl. right. rewrite flat_map_app, in_app_iff. right. simpl.
      rewrite in_app_iff. auto.
    - rewrite ids_fill in Hd. apply NoDup_app_inv in Hd. destruct Hd as [_ [Hd _]].
      apply NoDup_app_inv in Hd. destruct Hd as [Hd _]. simpl in Hd.
      rewrite flat_map_app in Hd. simpl in Hd. apply NoDup_cons_iff in Hd.
      destruct Hd as [H1 H2]. rewrite !in_app_iff in H1.
      apply NoDup_app_inv in H2. destruct H2 as [_ [H2 H3]].
      apply NoDup_app_inv in H2. destruct H2 as [_ [_ H4]].
      cbn [upd_box]. destruct (Nat.eqb_spec (b_id d) i) as [E|E]; [subst; tauto|].
      rewrite map_app. cbn [map]. rewrite Hn.
      rewrite !map_upd_absent; auto.
      intro Hx. apply (H3 i Hx). rewrite in_app_iff. auto. }
  intros b cs Hd. apply G; auto.
  - simpl. auto.
  - simpl. now rewrite Nat.eqb_refl.
Qed.

(** ** Layout contexts *)
Definition lcontext := list (lhead * list layout * list layout).
Fixpoint lfill (C : lcontext) (l : layout) : layout :=
  match C with
  | [] => l
  | (h, pre, post) :: C' => lfill C' (Node h (pre ++ l :: post))
  end.

Lemma lfill_app : forall C1 C2 n, lfill (C1 ++ C2) n = lfill C2 (lfill C1 n).
Proof. induction C1 as [|[[b pre] post] C1 IH]; intros; simpl; auto. Qed.

Section LMeasure.
  Context {A : Type} (m : layout -> list A) (hb : lhead -> list A).
  Hypothesis Hm : forall h cs, m (Node h cs) = hb h ++ flat_map m cs.
  Fixpoint lbefore (C : lcontext) : list A :=
    match C with
    | [] => []
    | (h, pre, _) :: C' => lbefore C' ++ hb h ++ flat_map m pre
    end.
  Fixpoint lafter (C : lcontext) : list A :=
    match C with
    | [] => []
    | (_, _, post) :: C' => flat_map m post ++ lafter C'
    end.
  Lemma lmeasure_fill : forall C l, m (lfill C l) = lbefore C ++ m l ++ lafter C.
  Proof.
    induction C as [|[[b pre] post] C IH]; intro n; simpl; [now rewrite app_nil_r|].
    rewrite IH, Hm, flat_map_app. simpl. now rewrite <- !app_assoc.
  Qed.
End LMeasure.

Lemma lids_eq : forall h cs, ids (Node h cs) = [l_id h] ++ flat_map ids cs.
Proof. intros. rewrite ids_node. reflexivity. Qed.
Definition lids_fill := lmeasure_fill ids (fun h => [l_id h]) lids_eq.

Lemma layout_ind2 : forall P : layout -> Prop,
  (forall h cs, Forall P cs -> P (Node h cs)) -> forall l, P l.
Proof.
  intros P H. fix IH 1. intros [h cs]. apply H. induction cs; constructor; auto.
Qed.

Lemma layout_found : forall i l, In i (ids l) -> exists C h cs,
  l = lfill C (Node h cs) /\ l_id h = i.
Proof.
  intros i l. induction l as [h cs IH] using layout_ind2. rewrite lids_eq. simpl.
  intros [H|H]; [exists [], h, cs; auto|].
  apply in_flat_map in H. destruct H as [c [Hc Hi]].
  rewrite Forall_forall in IH. destruct (IH c Hc Hi) as [C [h' [cs' [-> E]]]].
  apply in_split in Hc. destruct Hc as [pre [post ->]].
  exists (C ++ [(h, pre, post)]), h', cs'. split; auto. now rewrite lfill_app.
Qed.

Lemma upd_layout_absent : forall i f l, ~ In i (ids l) -> upd_layout i f l = l.
Proof.
  intros i f l. induction l as [h cs IH] using layout_ind2. rewrite lids_eq. simpl.
  intro H. destruct (Nat.eqb_spec (l_id h) i) as [E|E]; [tauto|]. f_equal.
  assert (H' : ~ In i (flat_map ids cs)) by tauto. clear H E.
  induction IH as [|c cs Hc _ IHcs]; simpl; auto. simpl in H'.
  rewrite in_app_iff in H'. rewrite Hc by tauto. rewrite IHcs by tauto. auto.
Qed.

Lemma map_updl_absent : forall i f cs, ~ In i (flat_map ids cs) ->
  map (upd_layout i f) cs = cs.
Proof.
  induction cs as [|c cs IH]; simpl; auto. intro H. rewrite in_app_iff in H.
  rewrite upd_layout_absent, IH by tauto. auto.
Qed.

Lemma upd_layout_fill : forall f C h cs, NoDup (ids (lfill C (Node h cs))) ->
  upd_layout (l_id h) f (lfill C (Node h cs)) = lfill C (f (Node h cs)).
Proof.
  intros f C. 
  assert (G : forall i n n', In i (ids n) -> upd_layout i f n = n' ->
    NoDup (ids (lfill C n)) -> upd_layout i f (lfill C n) = lfill C n').
  { induction C as [|[[d pre] post] C IH]; intros i n n' Hi Hn Hd; simpl; auto.
    simpl in Hd. apply IH; auto.
    - rewrite lids_eq. simpl. right. rewrite flat_map_app, in_app_iff. right. simpl.
      rewrite in_app_iff. auto.
    - rewrite lids_fill in Hd. apply NoDup_app_inv in Hd. destruct Hd as [_ [Hd _]].
      apply NoDup_app_inv in Hd. destruct Hd as [Hd _]. rewrite lids_eq in Hd. simpl in Hd.
      rewrite flat_map_app in Hd. simpl in Hd. apply NoDup_cons_iff in Hd.
      destruct Hd as [H1 H2]. rewrite !in_app_iff in H1.
      apply NoDup_app_inv in H2. destruct H2 as [_ [H2 H3]].
      apply NoDup_app_inv in H2. destruct H2 as [_ [_ H4]].
      cbn [upd_layout]. destruct (Nat.eqb_spec (l_id d) i) as [E|E]; [subst; tauto|].
      rewrite map_app. cbn [map]. rewrite Hn.
      rewrite !map_updl_absent; auto.
      intro Hx. apply (H3 i Hx). rewrite in_app_iff. auto. }
  intros b cs Hd. apply G; auto.
  - rewrite lids_eq. simpl. auto.
  - simpl. now rewrite Nat.eqb_refl.
Qed.

Lemma get_layout_fill : forall C h cs, NoDup (ids (lfill C (Node h cs))) ->
  get_layout (l_id h) (lfill C (Node h cs)) = Some (Node h cs).
Proof.
  assert (Abs : forall i l, ~ In i (ids l) -> get_layout i l = None).
  { intros i l. induction l as [h cs IH] using layout_ind2. rewrite lids_eq. simpl.
    intro H. destruct (Nat.eqb_spec (l_id h) i) as [E|E]; [tauto|].
    assert (H' : ~ In i (flat_map ids cs)) by tauto. clear H E.
    induction IH as [|c cs Hc _ IHcs]; simpl; auto. simpl in H'.
    rewrite in_app_iff in H'. rewrite Hc by tauto. apply IHcs. tauto. }
  assert (G : forall i n x C, In i (ids n) -> get_layout i n = Some x ->
    NoDup (ids (lfill C n)) -> get_layout i (lfill C n) = Some x).
  { intros i n x C. revert i n x. induction C as [|[[d pre] post] C IH];
      intros i n x Hi Hn Hd; simpl; auto.
    simpl in Hd. apply IH; auto.
    - rewrite lids_eq. simpl. right. rewrite flat_map_app, in_app_iff. right. simpl.
      rewrite in_app_iff. auto.
    - rewrite lids_fill in Hd. apply NoDup_app_inv in Hd. destruct Hd as [_ [Hd _]].
      apply NoDup_app_inv in Hd. destruct Hd as [Hd _]. rewrite lids_eq in Hd. simpl in Hd.
      rewrite flat_map_app in Hd. simpl in Hd. apply NoDup_cons_iff in Hd.
      destruct Hd as [H1 H2]. rewrite !in_app_iff in H1.
      apply NoDup_app_inv in H2. destruct H2 as [_ [_ H3]].
      cbn [get_layout]. destruct (Nat.eqb_spec (l_id d) i) as [E|E]; [subst; tauto|].
      clear H1. induction pre as [|p pre IHp]; simpl; [now rewrite Hn|].
      rewrite (Abs i p).
      + apply IHp. intros x' Hx'. apply H3. simpl. rewrite in_app_iff. auto.
      + intro Hx. apply (H3 i); [simpl|]; rewrite in_app_iff; auto. }
  intros C h cs Hd. apply G; auto.
  - rewrite lids_eq. simpl. auto.
  - simpl. now rewrite Nat.eqb_refl.
Qed.

(** ** add_child *)
Lemma list_index_spec : forall i cs k, list_index i cs = Ok k ->
  exists pre c post, cs = pre ++ c :: post /\ node_id c = i /\ length pre = k /\
    Forall (fun d => node_id d <> i) pre.
Proof.
  induction cs as [|c cs IH]; intros k H; [discriminate|]. simpl in H.
  destruct (Nat.eqb_spec (node_id c) i) as [E|E].
  - injection H as <-. exists [], c, cs. auto.
  - destruct (list_index i cs) as [k'|]; [|discriminate]. simpl in H. injection H as <-.
    destruct (IH k' eq_refl) as [pre [c' [post [-> [H1 [H2 H3]]]]]].
    exists (c :: pre), c', post. simpl. auto.
Qed.

Lemma list_index_err : forall i cs e, list_index i cs = Err e <->
  e = EValue /\ Forall (fun d => node_id d <> i) cs.
Proof.
  intros i cs e. induction cs as [|c cs IH]; simpl.
  - split; [intro H; injection H as <-; auto | intros [-> _]; auto].
  - destruct (Nat.eqb_spec (node_id c) i) as [E|E].
    + split; [discriminate | intros [_ H]; inversion H; congruence].
    + destruct (list_index i cs) as [k|e']; simpl.
      * split; [discriminate|]. intros [-> H]. inversion H; subst.
        assert (Ok k = Err EValue) by now apply IH. discriminate.
      * rewrite IH. split; intros [-> H]; split; auto. now inversion H.
Qed.

Lemma list_insert_app : forall pre x post,
  list_insert (length pre) x (pre ++ post) = pre ++ x :: post.
Proof. induction pre as [|c pre IH]; intros; simpl; auto. now rewrite IH. Qed.

Lemma add_child_spec : forall x p a b cs cs', add_child x p a b cs = Ok cs' ->
  exists pre post, cs = pre ++ post /\ cs' = pre ++ x :: post /\
    match a, b with
    | Some _, Some _ => False
    | None, Some i => exists c post', post = c :: post' /\ node_id c = i
    | Some i, None => exists pre' c, pre = pre' ++ [c] /\ node_id c = i
    | None, None => if p then pre = [] else post = []
    end.
Proof.
  intros x p [a|] [b|] cs cs' H; unfold add_child in H; try discriminate.
  - destruct (list_index a cs) as [k|] eqn:E; [|discriminate].
    assert (E2 : cs' = list_insert (S k) x cs) by (cbv [rbind] in H; congruence). subst cs'.
    clear H. apply list_index_spec in E. destruct E as [pre [c [post [-> [H1 [<- _]]]]]].
    exists (pre ++ [c]), post. rewrite <- app_assoc. split; auto. split; [|eauto].
    change (pre ++ c :: post) with (pre ++ [c] ++ post). rewrite app_assoc.
    replace (S (length pre)) with (length (pre ++ [c])) by (rewrite app_length; simpl; lia).
    apply list_insert_app.
  - destruct (list_index b cs) as [k|] eqn:E; [|discriminate]. injection H as <-.
    apply list_index_spec in E. destruct E as [pre [c [post [-> [H1 [<- _]]]]]].
    exists pre, (c :: post). split; auto. split; [|eauto]. apply list_insert_app.
  - injection H as <-. destruct p.
    + exists [], cs. auto.
    + exists cs, []. now rewrite app_nil_r.
Qed.

(** ** Well formed slides *)
Record wf (s : slide) : Prop := mkWf {
  wf_nodup : NoDup (node_ids (sl_box s));
  wf_small : forall i, In i (node_ids (sl_box s)) -> (i < sl_next s)%nat;
  wf_lnodup : NoDup (ids (sl_layout s));
  wf_lsmall : forall i, In i (ids (sl_layout s)) -> (i < sl_next s)%nat;
  wf_boxes : forall b, In b (boxes (sl_box s)) -> In (b_id b) (ids (sl_layout s));
  wf_steps : forall b, In b (boxes (sl_box s)) -> 1 <= min_steps (b_show b) <= sl_max s;
  wf_max : 1 <= sl_max s
}.

Lemma root_box_in : forall C b cs, In b (boxes (fill C (NBox b cs))).
Proof. intros. rewrite boxes_fill, !in_app_iff. right. left. now left. Qed.

Lemma new_layout_head : forall id a l, new_layout id a = Ok l ->
  exists h, l = Node h [] /\ l_id h = id /\ l_texts h = [].
Proof.
  intros id a l H. unfold new_layout in H.
  destruct (opt_pos (a_x a)) as [x|]; [|discriminate]. simpl in H.
  destruct (opt_pos (a_y a)) as [y|]; [|discriminate]. simpl in H.
  destruct (parse_size (or_zero (a_width a))) as [w|]; [|discriminate]. simpl in H.
  destruct (parse_size (or_zero (a_height a))) as [h|]; [|discriminate]. simpl in H.
  injection H as <-. eexists. split; [reflexivity|]. auto.
Qed.

(** What a call of box() does. *)
Inductive box_outcome (s : slide) (r : nat) (a : box_args) : slide -> result nat -> Prop :=
| bo_nobody : get_box r (sl_box s) = None -> box_outcome s r a s (Err EAttribute)
| bo_layout : forall e, new_layout (sl_next s) (ba_layout a) = Err e ->
    box_outcome s r a s (Err e)
| bo_show : forall e l C b cs LC h ls,
    new_layout (sl_next s) (ba_layout a) = Ok l ->
    found (sl_box s) r C b cs ->
    sl_layout s = lfill LC (Node h ls) -> l_id h = b_id b ->
    parse_show (ba_show a) (Some (sl_max s)) = Err e ->
    box_outcome s r a
      (mkSlide (sl_box s) (lfill LC (add_kid (Node h ls) l (ba_prepend a))) (sl_max s)
         (S (sl_next s)) (sl_store s)) (Err e)
| bo_child : forall e l C b cs LC h ls show,
    new_layout (sl_next s) (ba_layout a) = Ok l ->
    found (sl_box s) r C b cs ->
    sl_layout s = lfill LC (Node h ls) -> l_id h = b_id b ->
    parse_show (ba_show a) (Some (sl_max s)) = Ok show ->
    (forall x, add_child x (ba_prepend a) (ba_above a) (ba_below a) cs = Err e) ->
    box_outcome s r a
      (mkSlide (sl_box s) (lfill LC (add_kid (Node h ls) l (ba_prepend a)))
         (Z.max (sl_max s) (max_step show)) (S (sl_next s)) (sl_store s)) (Err e)
| bo_ok : forall l C b cs LC h ls show z cs',
    new_layout (sl_next s) (ba_layout a) = Ok l ->
    found (sl_box s) r C b cs ->
    sl_layout s = lfill LC (Node h ls) -> l_id h = b_id b ->
    parse_show (ba_show a) (Some (sl_max s)) = Ok show ->
    z = match ba_z a with Some z => z | None => b_z b end ->
    add_child (NBox (mkBox (sl_next s) show z) []) (ba_prepend a) (ba_above a) (ba_below a) cs
      = Ok cs' ->
    box_outcome s r a
      (mkSlide (fill C (NBox b cs')) (lfill LC (add_kid (Node h ls) l (ba_prepend a)))
         (Z.max (sl_max s) (max_step show)) (S (sl_next s)) (sl_store s)) (Ok (sl_next s)).

Lemma add_child_err : forall x y p a b cs e, add_child x p a b cs = Err e ->
  add_child y p a b cs = Err e.
Proof.
  intros x y p [a|] [b|] cs e H; unfold add_child in *; auto; try discriminate.
  - destruct (list_index a cs); [discriminate | auto].
  - destruct (list_index b cs); [discriminate | auto].
Qed.

Lemma box_call_outcome : forall s r a s' res, wf s -> box_call s r a = (s', res) ->
  box_outcome s r a s' res.
Proof.
  intros s r a s' res W H. unfold box_call in H.
  destruct (get_box r (sl_box s)) as [[b cs]|] eqn:Eg.
  2: { injection H as <- <-. now apply bo_nobody. }
  destruct (new_layout (sl_next s) (ba_layout a)) as [l|e] eqn:El.
  2: { injection H as <- <-. now apply bo_layout. }
  destruct (get_box_found _ _ _ _ Eg) as [C Hf]. assert (Hf' := Hf).
  destruct Hf' as [Et Hr].
  assert (Hb : In (b_id b) (ids (sl_layout s))).
  { apply (wf_boxes s W). rewrite Et. apply root_box_in. }
  destruct (layout_found _ _ Hb) as [LC [h [ls [Es Eh]]]].
  assert (EL : upd_layout (b_id b) (fun p => add_kid p l (ba_prepend a)) (sl_layout s) =
               lfill LC (add_kid (Node h ls) l (ba_prepend a))).
  { rewrite Es, <- Eh. apply upd_layout_fill. rewrite <- Es. apply (wf_lnodup s W). }
  rewrite EL in H. clear EL. cbv zeta in H.
  destruct (parse_show (ba_show a) (Some (sl_max s))) as [show|e] eqn:Eps.
  2: { injection H as <- <-. now apply (bo_show s r a e l C b cs LC h ls). }
  cbn [sl_max set_max sl_box sl_layout sl_next sl_store] in H.
  destruct (add_child _ (ba_prepend a) (ba_above a) (ba_below a) cs) as [cs'|e] eqn:Ea.
  2: { injection H as <- <-. apply (bo_child s r a e l C b cs LC h ls show); auto.
       intro x. eapply add_child_err; eauto. }
  injection H as <- <-. unfold set_tree. cbn [sl_max set_max sl_box sl_layout sl_next sl_store].
  rewrite Et, upd_box_fill by (rewrite <- Et; apply (wf_nodup s W)).
  eapply bo_ok; eauto.
Qed.

(** Inserting a new object in a tree. *)
Lemma ids_insert : forall C b pre post x, Permutation
  (node_ids (fill C (NBox b (pre ++ x :: post))))
  (node_ids x ++ node_ids (fill C (NBox b (pre ++ post)))).
Proof.
  intros C b pre post x. rewrite !ids_fill. cbn [node_ids]. rewrite !flat_map_app. simpl.
  set (P := before _ _ C). set (Q := after _ _ C).
  generalize (flat_map node_ids pre) as A, (node_ids x) as X, (flat_map node_ids post) as B.
  intros A X B.
  replace (P ++ b_id b :: (A ++ X ++ B) ++ Q)
    with ((P ++ b_id b :: A) ++ X ++ (B ++ Q)) by (rewrite <- !app_assoc; reflexivity).
  replace (X ++ P ++ b_id b :: (A ++ B) ++ Q)
    with (X ++ (P ++ b_id b :: A) ++ (B ++ Q)) by (rewrite <- !app_assoc; reflexivity).
  apply Permutation_app_swap_app.
Qed.

Lemma boxes_insert : forall C b pre post x, Permutation
  (boxes (fill C (NBox b (pre ++ x :: post))))
  (boxes x ++ boxes (fill C (NBox b (pre ++ post)))).
Proof.
  intros C b pre post x. rewrite !boxes_fill. cbn [boxes]. rewrite !flat_map_app. simpl.
  set (P := before _ _ C). set (Q := after _ _ C).
  generalize (flat_map boxes pre) as A, (boxes x) as X, (flat_map boxes post) as B.
  intros A X B.
  replace (P ++ b :: (A ++ X ++ B) ++ Q)
    with ((P ++ b :: A) ++ X ++ (B ++ Q)) by (rewrite <- !app_assoc; reflexivity).
  replace (X ++ P ++ b :: (A ++ B) ++ Q)
    with (X ++ (P ++ b :: A) ++ (B ++ Q)) by (rewrite <- !app_assoc; reflexivity).
  apply Permutation_app_swap_app.
Qed.

Lemma lids_insert : forall C h ls l p, Permutation
  (ids (lfill C (add_kid (Node h ls) l p))) (ids l ++ ids (lfill C (Node h ls))).
Proof.
  intros C h ls l p.
  assert (G : forall pre post, Permutation (ids (lfill C (Node h (pre ++ l :: post))))
                (ids l ++ ids (lfill C (Node h (pre ++ post))))).
  { intros pre post. rewrite !lids_fill, !lids_eq, !flat_map_app. simpl.
    set (P := lbefore _ _ C). set (Q := lafter _ C).
    generalize (flat_map ids pre) as A, (ids l) as X, (flat_map ids post) as B.
    intros A X B.
    replace (P ++ l_id h :: (A ++ X ++ B) ++ Q)
      with ((P ++ l_id h :: A) ++ X ++ (B ++ Q)) by (rewrite <- !app_assoc; reflexivity).
    replace (X ++ P ++ l_id h :: (A ++ B) ++ Q)
      with (X ++ (P ++ l_id h :: A) ++ (B ++ Q)) by (rewrite <- !app_assoc; reflexivity).
    apply Permutation_app_swap_app. }
  unfold add_kid. destruct p.
  - apply (G [] ls).
  - rewrite <- (app_nil_r ls) at 2. apply (G ls []).
Qed.

Lemma NoDup_insert : forall (i : nat) l l', Permutation l' (i :: l) -> NoDup l -> ~ In i l ->
  NoDup l'.
Proof.
  intros i l l' Hp Hn Hi. apply (Permutation_NoDup (Permutation_sym Hp)). now constructor.
Qed.

Lemma parse_show_min : forall a cur i, parse_show a cur = Ok i -> min_steps i = max_step i.
Proof.
  intros a cur i H. destruct a as [|n|s|]; simpl in H; try discriminate;
    try (injection H as <-; reflexivity).
  unfold parse_show_str in H. destruct (map strip (split_on 44%N s)); [discriminate|].
  destruct (parse_intervals _ cur [] None) as [p|]; [|discriminate].
  cbn [rbind] in H. injection H as <-. reflexivity.
Qed.

Lemma show_mentions : forall r a cur i, 0 <= cur ->
  parse_show (ba_show a) (Some cur) = Ok i ->
  1 <= max_step i /\
  (forall k, mentions_frag (CBox r a) cur k -> k <= max_step i) /\
  (max_step i = 1 \/ mentions_frag (CBox r a) cur (max_step i)).
Proof.
  intros r a cur i Hc H. simpl. destruct (ba_show a) as [|n|s|] eqn:Ea.
  - injection H as <-. vm_compute. repeat split; try discriminate; auto.
    intros k ->. discriminate.
  - injection H as <-. unfold max_step, mk_show_info, max_step_of. simpl.
    split; [lia|]. split; [intros; lia | lia].
  - rewrite <- (parse_show_min _ _ _ H).
    assert (Hx : exists xs, selectors_text xs s /\ acceptable (Some cur) xs)
      by (apply show_accepts; eauto).
    destruct Hx as [xs [Hx _]].
    assert (Hc' : forall c, Some cur = Some c -> 0 <= c) by (intros c E; injection E as <-; auto).
    destruct (show_min_steps s (Some cur) i xs Hc' H Hx) as [H1 [H2 H3]].
    split; auto. split.
    + intros k [ys [x [Hy [Hin Hm]]]]. rewrite (selectors_text_unique _ _ _ Hy Hx) in Hin. eauto.
    + destruct H3 as [H3|[x [Hin Hm]]]; auto. right. exists xs, x. auto.
  - discriminate.
Qed.

(** ** The effect of item calls *)
Inductive item_outcome (s : slide) (r : nat) (k : item_kind) : slide -> result nat -> Prop :=
| io_err : forall e, item_outcome s r k s (Err e)
| io_ok : forall C b b' cs LC h h' ls m st,
    found (sl_box s) r C b cs ->
    sl_layout s = lfill LC (Node h ls) -> l_id h = b_id b -> l_id h' = l_id h ->
    b_id b' = b_id b -> b_z b' = b_z b ->
    match k with
    | ImageItem _ _ (Some n) => m = Z.max (sl_max s) n /\ b_show b' = ensure_steps (b_show b) n
    | _ => m = sl_max s /\ b_show b' = b_show b
    end ->
    match k with
    | Shape => h' = h
    | TextItem w q fit => Node h' ls = text_layout (sl_next s) w q fit (Node h ls)
    | ImageItem w q _ => set_image_size_request (Node h ls) w q = Ok (Node h' ls)
    end ->
    st = match k with
         | TextItem w q _ => upd_text (sl_store s) (sl_next s) (mkText w q 1)
         | _ => sl_store s
         end ->
    item_outcome s r k
      (mkSlide (fill C (NBox b' (cs ++ [NItem (sl_next s) (b_z b)]))) (lfill LC (Node h' ls)) m
         (S (sl_next s)) st) (Ok (sl_next s)).

Lemma text_layout_id : forall t w h fit hd cs, exists hd',
  text_layout t w h fit (Node hd cs) = Node hd' cs /\ l_id hd' = l_id hd.
Proof.
  intros t w h fit hd cs. unfold text_layout. eexists. split; [reflexivity|].
  cbn [l_id].
  destruct (negb fit || match l_wdef hd with ANone => true | _ => false end),
    (negb fit || match l_hdef hd with ANone => true | _ => false end); reflexivity.
Qed.

Lemma image_request_id : forall hd cs w h l', set_image_size_request (Node hd cs) w h = Ok l' ->
  exists hd', l' = Node hd' cs /\ l_id hd' = l_id hd.
Proof.
  intros hd cs w h l' H. unfold set_image_size_request in H.
  destruct (min_children_size _ _) as [mx my]. cbv zeta in H.
  destruct (Qeq_bool h 0 || Qeq_bool w 0)%bool, (l_wdef hd), (l_hdef hd); try discriminate;
    injection H as <-; (eexists; split; [reflexivity|]); reflexivity.
Qed.

Lemma wf_found : forall s r b cs, wf s -> get_box r (sl_box s) = Some (b, cs) ->
  exists C LC h ls, found (sl_box s) r C b cs /\ sl_layout s = lfill LC (Node h ls) /\
    l_id h = b_id b.
Proof.
  intros s r b cs W Eg. destruct (get_box_found _ _ _ _ Eg) as [C Hf].
  assert (Hb : In (b_id b) (ids (sl_layout s))).
  { apply (wf_boxes s W). destruct Hf as [-> _]. apply root_box_in. }
  destruct (layout_found _ _ Hb) as [LC [h [ls [Es Eh]]]]. exists C, LC, h, ls. auto.
Qed.

Lemma item_call_outcome : forall s r k s' res, wf s -> item_call s r k = (s', res) ->
  item_outcome s r k s' res.
Proof.
  intros s r k s' res W H. unfold item_call in H.
  destruct (get_box r (sl_box s)) as [[b cs]|] eqn:Eg.
  2: { injection H as <- <-. apply io_err. }
  destruct (wf_found _ _ _ _ W Eg) as [C [LC [h [ls [Hf [Es Eh]]]]]].
  assert (Hf' := Hf). destruct Hf' as [Et Hr].
  assert (Hn := wf_nodup s W). assert (Hl := wf_lnodup s W).
  destruct k as [|w q fit|w q steps].
  - injection H as <- <-. unfold append_item. rewrite Et at 1. rewrite Et in Hn.
    rewrite upd_box_fill by auto. rewrite Es.
    apply (io_ok s r Shape C b b cs LC h h ls); auto.
  - injection H as <- <-. unfold append_item.
    cbn [sl_box sl_layout sl_max sl_next sl_store].
    rewrite Et at 1. rewrite Et in Hn. rewrite upd_box_fill by auto.
    rewrite Es, <- Eh. rewrite Es in Hl. rewrite upd_layout_fill by auto.
    destruct (text_layout_id (sl_next s) w q fit h ls) as [h' [E1 E2]]. rewrite E1.
    apply (io_ok s r (TextItem w q fit) C b b cs LC h h' ls); auto.
  - rewrite Es, <- Eh in H. rewrite Es in Hl. rewrite get_layout_fill in H by auto.
    destruct (set_image_size_request (Node h ls) w q) as [l'|e] eqn:Ei.
    2: { injection H as <- <-. apply io_err. }
    destruct (image_request_id _ _ _ _ _ Ei) as [h' [-> Eh']].
    rewrite Eh in H. cbv zeta in H. unfold set_layout in H.
    cbn [sl_box sl_layout sl_max sl_next sl_store] in H.
    assert (EL : upd_layout (b_id b) (fun _ => Node h' ls) (lfill LC (Node h ls)) =
                 lfill LC (Node h' ls)) by (rewrite <- Eh; now rewrite upd_layout_fill).
    rewrite EL in H. rewrite Et in Hn. destruct steps as [n|].
    + unfold ensure_box_steps, append_item, set_max, set_tree in H.
      cbn [sl_box sl_layout sl_max sl_next sl_store] in H. injection H as <- <-.
      rewrite Et at 1. rewrite upd_box_fill by auto.
      set (b' := mkBox (b_id b) (ensure_steps (b_show b) n) (b_z b)).
      change (b_id b) with (b_id b') at 1. rewrite upd_box_fill.
      * apply (io_ok s r (ImageItem w q (Some n)) C b b' cs LC h h' ls); auto.
      * revert Hn. rewrite !ids_fill. simpl. auto.
    + unfold append_item in H. cbn [sl_box sl_layout sl_max sl_next sl_store] in H.
      injection H as <- <-. rewrite Et at 1. rewrite upd_box_fill by auto.
      apply (io_ok s r (ImageItem w q None) C b b cs LC h h' ls); auto.
Qed.

(** ** Well-formedness is kept *)
Lemma lids_same : forall C h h' ls, l_id h' = l_id h ->
  ids (lfill C (Node h' ls)) = ids (lfill C (Node h ls)).
Proof. intros. rewrite !lids_fill, !lids_eq. now rewrite H. Qed.

Lemma layout_wf : forall s LC h ls l p id, wf s -> sl_layout s = lfill LC (Node h ls) ->
  new_layout id p = Ok l -> id = sl_next s -> forall pre,
  NoDup (ids (lfill LC (add_kid (Node h ls) l pre))) /\
  (forall i, In i (ids (lfill LC (add_kid (Node h ls) l pre))) <-> i = sl_next s \/
     In i (ids (sl_layout s))).
Proof.
  intros s LC h ls l p id W Es Hl -> pre.
  destruct (new_layout_head _ _ _ Hl) as [hl [-> [Ei _]]].
  assert (HP := lids_insert LC h ls (Node hl []) pre). rewrite lids_eq, Ei in HP. simpl in HP.
  rewrite <- Es in HP. split.
  - apply (NoDup_insert _ _ _ HP); [apply (wf_lnodup s W)|].
    intro Hx. apply (wf_lsmall s W) in Hx. lia.
  - intro i. split; intro H.
    + apply (Permutation_in _ HP) in H. simpl in H. intuition.
    + apply (Permutation_in _ (Permutation_sym HP)). simpl. intuition.
Qed.

Lemma perform_wf : forall s c s' res, wf s -> perform s c = (s', res) -> wf s'.
Proof.
  intros s [r a|r k] s' res W H; simpl in H.
  - apply box_call_outcome in H; auto.
    destruct H as [Hg|e Hl|e l C b cs LC h ls Hl Hf Es Eh Hs
                  |e l C b cs LC h ls show Hl Hf Es Eh Hs Ha
                  |l C b cs LC h ls show z cs' Hl Hf Es Eh Hs Hz Ha]; auto.
    + destruct (layout_wf s LC h ls l _ _ W Es Hl eq_refl (ba_prepend a)) as [L1 L2].
      destruct W. constructor; cbn [sl_box sl_layout sl_max sl_next sl_store]; auto.
      * intros i Hi. apply wf_small0 in Hi. lia.
      * intros i Hi. apply L2 in Hi. destruct Hi as [->|Hi]; [lia|].
        apply wf_lsmall0 in Hi. lia.
      * intros d Hd. apply L2. auto.
    + destruct (layout_wf s LC h ls l _ _ W Es Hl eq_refl (ba_prepend a)) as [L1 L2].
      destruct W. constructor; cbn [sl_box sl_layout sl_max sl_next sl_store]; auto.
      * intros i Hi. apply wf_small0 in Hi. lia.
      * intros i Hi. apply L2 in Hi. destruct Hi as [->|Hi]; [lia|].
        apply wf_lsmall0 in Hi. lia.
      * intros d Hd. apply L2. auto.
      * intros d Hd. apply wf_steps0 in Hd. lia.
      * lia.
    + destruct (layout_wf s LC h ls l _ _ W Es Hl eq_refl (ba_prepend a)) as [L1 L2].
      destruct Hf as [Et Hr]. destruct (add_child_spec _ _ _ _ _ _ Ha) as [pre [post [-> [-> _]]]].
      assert (HP := ids_insert C b pre post (NBox (mkBox (sl_next s) show z) [])).
      assert (HB := boxes_insert C b pre post (NBox (mkBox (sl_next s) show z) [])).
      rewrite <- Et in HP, HB. simpl in HP, HB.
      destruct (show_mentions r a (sl_max s) show) as [M1 _]; auto.
      { destruct W. lia. }
      assert (M2 := parse_show_min _ _ _ Hs).
      destruct W. constructor; cbn [sl_box sl_layout sl_max sl_next sl_store]; auto.
      * apply (NoDup_insert _ _ _ HP); auto. intro Hx. apply wf_small0 in Hx. lia.
      * intros i Hi. apply (Permutation_in _ HP) in Hi. destruct Hi as [<-|Hi]; [lia|].
        apply wf_small0 in Hi. lia.
      * intros i Hi. apply L2 in Hi. destruct Hi as [->|Hi]; [lia|].
        apply wf_lsmall0 in Hi. lia.
      * intros d Hd. apply L2. apply (Permutation_in _ HB) in Hd.
        destruct Hd as [<-|Hd]; simpl; auto.
      * intros d Hd. apply (Permutation_in _ HB) in Hd. destruct Hd as [<-|Hd].
        -- simpl. lia.
        -- apply wf_steps0 in Hd. lia.
      * lia.
  - apply item_call_outcome in H; auto.
    destruct H as [e|C b b' cs LC h h' ls m st Hf Es Eh Eh' Eb Ez Hk Hh Hst]; auto.
    destruct Hf as [Et Hr].
    assert (HP := ids_insert C b cs [] (NItem (sl_next s) (b_z b))).
    assert (HB := boxes_insert C b cs [] (NItem (sl_next s) (b_z b))).
    rewrite app_nil_r, <- Et in HP, HB. simpl in HP, HB.
    assert (EP : node_ids (fill C (NBox b' (cs ++ [NItem (sl_next s) (b_z b)]))) =
                 node_ids (fill C (NBox b (cs ++ [NItem (sl_next s) (b_z b)]))))
      by (rewrite !ids_fill; simpl; now rewrite Eb).
    assert (Hm : sl_max s <= m).
    { destruct k as [| |w q [n|]]; destruct Hk as [-> _]; lia. }
    assert (Bin : forall d, In d (boxes (fill C (NBox b' (cs ++ [NItem (sl_next s) (b_z b)])))) ->
              d = b' \/ In d (boxes (sl_box s))).
    { intros d Hd. rewrite boxes_fill, !in_app_iff in Hd.
      assert (Hc : d = b' \/ In d (boxes (fill C (NBox b (cs ++ [NItem (sl_next s) (b_z b)]))))).
      { rewrite boxes_fill, !in_app_iff. simpl in *. intuition. }
      destruct Hc as [Hc|Hc]; auto. right. apply (Permutation_in _ HB Hc). }
    assert (Bb : In b (boxes (sl_box s))) by (rewrite Et; apply root_box_in).
    assert (EL := lids_same LC h h' ls Eh'). rewrite <- Es in EL.
    destruct W. constructor; cbn [sl_box sl_layout sl_max sl_next sl_store]; rewrite ?EL, ?EP; auto.
    + apply (NoDup_insert _ _ _ HP); auto. intro Hx. apply wf_small0 in Hx. lia.
    + intros i Hi. apply (Permutation_in _ HP) in Hi. destruct Hi as [<-|Hi]; [lia|].
      apply wf_small0 in Hi. lia.
    + intros i Hi. apply wf_lsmall0 in Hi. lia.
    + intros d Hd. destruct (Bin d Hd) as [->|Hd']; auto. rewrite Eb. auto.
    + intros d Hd. destruct (Bin d Hd) as [->|Hd'].
      * assert (B1 := wf_steps0 b Bb).
        destruct k as [| |w q [n|]]; destruct Hk as [-> ->]; auto.
        rewrite ensure_steps_min by (unfold min_steps in *; lia). lia.
      * assert (B1 := wf_steps0 d Hd'). lia.
    + lia.
Qed.

Lemma new_slide_wf : forall w h s, new_slide w h = Ok s -> wf s.
Proof.
  intros w h s H. unfold new_slide in H.
  destruct (new_layout 0 _) as [l|] eqn:El; [|discriminate]. simpl in H. injection H as <-.
  destruct (new_layout_head _ _ _ El) as [hl [-> [Ei _]]].
  constructor; cbn [sl_box sl_layout sl_max sl_next sl_store].
  - simpl. repeat constructor; simpl; tauto.
  - simpl. intros i [<-|[]]. lia.
  - rewrite lids_eq, Ei. simpl. repeat constructor; simpl; tauto.
  - rewrite lids_eq, Ei. simpl. intros i [<-|[]]. lia.
  - rewrite lids_eq, Ei. simpl. intros b [<-|[]]. simpl. auto.
  - simpl. intros b [<-|[]]. vm_compute. split; discriminate.
  - lia.
Qed.

Lemma reachable_wf : forall s s', wf s -> reachable s s' -> wf s'.
Proof. intros s s' W H. induction H; auto. eapply perform_wf; eauto. Qed.
Lemma history_reachable : forall s h s', history s h s' -> reachable s s'.
Proof. intros s h s' H. induction H; [constructor|]. econstructor; eauto. Qed.

(** ** C03 *)
Lemma max_default_spec : forall l d, l <> [] -> In (max_default d l) l /\
  forall x, In x l -> x <= max_default d l.
Proof.
  induction l as [|x l IH]; intros d H; [congruence|]. destruct l as [|y l].
  - simpl. split; auto. intros z [->|[]]. lia.
  - destruct (IH d) as [H1 H2]; [discriminate|].
    change (max_default d (x :: y :: l)) with (Z.max x (max_default d (y :: l))).
    split.
    + destruct (Z.max_spec x (max_default d (y :: l))) as [[_ ->]|[_ ->]];
        [now right | now left].
    + intros z [->|Hz]; [lia|]. apply H2 in Hz. lia.
Qed.

Lemma steps_spec : forall s, wf s -> forall m,
  (forall b, In b (boxes (sl_box s)) -> min_steps (b_show b) <= m) -> 1 <= m ->
  (m = 1 \/ exists b, In b (boxes (sl_box s)) /\ min_steps (b_show b) = m) ->
  steps s = m.
Proof.
  intros s W m Hu Hm Ha. unfold steps. rewrite traverse_boxes.
  set (L := filter _ _).
  assert (HL : forall v, In v L <-> v = 1 \/ exists b, In b (boxes (sl_box s)) /\
             min_steps (b_show b) = v).
  { intro v. unfold L. rewrite filter_In. cbn [In]. rewrite in_map_iff. split.
    - intros [[->|[b [E Hb]]] _]; eauto.
    - intros [->|[b [Hb E]]]; split; auto.
      + right. exists b. auto.
      + apply (wf_steps s W) in Hb. destruct (Z.eqb_spec v 0); auto. lia. }
  destruct (max_default_spec L 1) as [H1 H2].
  { intro E. assert (In 1 L) by (apply HL; auto). rewrite E in H. destruct H. }
  assert (Hle : max_default 1 L <= m).
  { apply HL in H1. destruct H1 as [->|[b [Hb <-]]]; auto. }
  assert (Hge : m <= max_default 1 L) by (apply H2, HL; auto). lia.
Qed.

Lemma boxes_ids : forall n b, In b (boxes n) -> In (b_id b) (node_ids n).
Proof.
  intro n. induction n as [i z|d cs IH] using node_ind2; intros b H; [destruct H|].
  simpl in *. destruct H as [->|H]; auto. right. apply in_flat_map in H.
  destruct H as [c [Hc Hb]]. apply in_flat_map. exists c. split; auto.
  rewrite Forall_forall in IH. now apply IH.
Qed.

Lemma NoDup_flat_map : forall (A : Type) (f : A -> list nat) cs c d x,
  NoDup (flat_map f cs) -> In c cs -> In d cs -> In x (f c) -> In x (f d) -> c = d.
Proof.
  induction cs as [|e cs IH]; intros c d x Hn Hc Hd Hxc Hxd; [destruct Hc|].
  simpl in Hn. apply NoDup_app_inv in Hn. destruct Hn as [_ [H2 H3]].
  destruct Hc as [->|Hc], Hd as [->|Hd]; auto.
  - exfalso. apply (H3 x Hxc). apply in_flat_map. eauto.
  - exfalso. apply (H3 x Hxd). apply in_flat_map. eauto.
  - eapply IH; eauto.
Qed.

Lemma NoDup_flat_map_in : forall (A : Type) (f : A -> list nat) cs c,
  NoDup (flat_map f cs) -> In c cs -> NoDup (f c).
Proof.
  induction cs as [|e cs IH]; intros c Hn Hc; [destruct Hc|].
  simpl in Hn. apply NoDup_app_inv in Hn. destruct Hn as [H1 [H2 _]].
  destruct Hc as [->|Hc]; auto.
Qed.

Lemma boxes_unique : forall n b d, NoDup (node_ids n) -> In b (boxes n) -> In d (boxes n) ->
  b_id b = b_id d -> b = d.
Proof.
  intro n. induction n as [i z|e cs IH] using node_ind2; intros b d Hn Hb Hd E; [destruct Hb|].
  simpl in *. apply NoDup_cons_iff in Hn. destruct Hn as [N1 N2].
  assert (Sub : forall b, In b (flat_map boxes cs) -> In (b_id b) (flat_map node_ids cs)).
  { intros x Hx. apply in_flat_map in Hx. destruct Hx as [c [Hc Hx]]. apply in_flat_map.
    exists c. split; auto. now apply boxes_ids. }
  destruct Hb as [->|Hb], Hd as [->|Hd]; auto.
  - elim N1. rewrite E. auto.
  - elim N1. rewrite <- E. auto.
  - apply in_flat_map in Hb. destruct Hb as [c [Hc Hb]].
    apply in_flat_map in Hd. destruct Hd as [c' [Hc' Hd]].
    assert (c = c').
    { apply (NoDup_flat_map _ node_ids cs c c' (b_id b)); auto; [|rewrite E];
        now apply boxes_ids. }
    subst c'. rewrite Forall_forall in IH. apply (IH c Hc); auto.
    apply (NoDup_flat_map_in _ _ _ _ N2 Hc).
Qed.

(** The box with the most steps. *)
Definition attained (s : slide) : Prop :=
  exists b, In b (boxes (sl_box s)) /\ min_steps (b_show b) = sl_max s.

Lemma perform_attained : forall s c s' i, wf s -> attained s -> perform s c = (s', Ok i) ->
  attained s'.
Proof.
  intros s [r a|r k] s' i W [b0 [Hb0 E0]] H; simpl in H.
  - apply box_call_outcome in H; auto. inversion H as [| | | |l C b cs LC h ls show z cs' Hl Hf Es
      Eh Hs Hz Ha Hs']; subst.
    destruct Hf as [Et Hr]. destruct (add_child_spec _ _ _ _ _ _ Ha) as [pre [post [-> [-> _]]]].
    unfold attained. cbn [sl_box sl_max].
    set (z := match ba_z a with Some z => z | None => b_z b end) in *.
    assert (HB := boxes_insert C b pre post (NBox (mkBox (sl_next s) show z) [])).
    rewrite <- Et in HB. simpl in HB. apply Permutation_sym in HB.
    destruct (Z.max_spec (sl_max s) (max_step show)) as [[Hx Em]|[Hx Em]]; rewrite Em.
    + exists (mkBox (sl_next s) show z). split; [apply (Permutation_in _ HB); now left|].
      simpl. eapply parse_show_min; eauto.
    + exists b0. split; auto. apply (Permutation_in _ HB). now right.
  - apply item_call_outcome in H; auto.
    inversion H as [|C b b' cs LC h h' ls m st Hf Es Eh Eh' Eb Ez Hk Hh Hst Hs']; subst.
    destruct Hf as [Et Hr]. unfold attained. cbn [sl_box sl_max].
    assert (In' : forall d, In d (boxes (sl_box s)) -> d <> b ->
       In d (boxes (fill C (NBox b' (cs ++ [NItem (sl_next s) (b_z b)]))))).
    { intros d Hd Hne. rewrite Et, boxes_fill, !in_app_iff in Hd.
      rewrite boxes_fill, !in_app_iff. simpl in *. rewrite flat_map_app, in_app_iff.
      intuition congruence. }
    assert (Inb : In b' (boxes (fill C (NBox b' (cs ++ [NItem (sl_next s) (b_z b)])))))
      by apply root_box_in.
    assert (W1 : forall d, In d (boxes (sl_box s)) -> 1 <= min_steps (b_show d) <= sl_max s)
      by apply (wf_steps s W).
    assert (Bb : In b (boxes (sl_box s))) by (rewrite Et; apply root_box_in).
    assert (Hn := wf_nodup s W).
    assert (Other : b_id b0 <> b_id b -> In b0 (boxes (fill C (NBox b' (cs ++
              [NItem (sl_next s) (b_z b)]))))) by (intro Hne; apply In'; auto; congruence).
    assert (Same : b_id b0 = b_id b -> b0 = b) by (intro E; eapply boxes_unique; eauto).
    destruct (Nat.eq_dec (b_id b0) (b_id b)) as [E|E].
    + apply Same in E. subst b0.
      exists b'. split; auto. destruct k as [| |w q [n|]]; destruct Hk as [-> ->]; auto.
      rewrite ensure_steps_min by (specialize (W1 b Bb); unfold min_steps in *; lia).
      congruence.
    + specialize (Other E). destruct k as [| |w q [n|]]; destruct Hk as [-> Eb'];
        try (exists b0; split; auto; fail).
      destruct (Z.max_spec (sl_max s) n) as [[Hx Em]|[Hx Em]]; rewrite Em.
      * exists b'. split; auto. rewrite Eb', ensure_steps_min
          by (specialize (W1 b Bb); unfold min_steps in *; lia).
        specialize (W1 b Bb). lia.
      * exists b0. auto.
Qed.

Theorem fragments : forall s0 h s, wf s0 -> attained s0 -> sl_max s0 = 1 -> history s0 h s ->
  steps s = sl_max s /\ 1 <= sl_max s /\
  (forall c cur i k, In (c, cur, i) h -> mentions_frag c cur k -> k <= sl_max s) /\
  (sl_max s = 1 \/ exists c cur i, In (c, cur, i) h /\ mentions_frag c cur (sl_max s)) /\
  attained s.
Proof.
  intros s0 h s W0 A0 M0 H.
  assert (G : wf s /\ attained s /\
    (forall c cur i k, In (c, cur, i) h -> mentions_frag c cur k -> k <= sl_max s) /\
    (sl_max s = 1 \/ exists c cur i, In (c, cur, i) h /\ mentions_frag c cur (sl_max s))).
  { induction H as [|h s1 c s2 i H IH Hp].
    - split; auto. split; auto. split; auto. intros c cur i k [].
    - destruct IH as [W [A [U L]]]. assert (W2 := perform_wf _ _ _ _ W Hp).
      assert (A2 := perform_attained _ _ _ _ W A Hp). split; auto. split; auto.
      assert (Hx : sl_max s1 <= sl_max s2 /\
        (forall k, mentions_frag c (sl_max s1) k -> k <= sl_max s2) /\
        (sl_max s2 = sl_max s1 \/ mentions_frag c (sl_max s1) (sl_max s2))).
      { assert (M1 := wf_max s1 W). destruct c as [r a|r k]; simpl in Hp.
        - apply box_call_outcome in Hp; auto. inversion Hp as [| | | |l C b cs LC h0 ls show z cs' Hl
            Hf Es Eh Hs Hz Ha Hs']; subst. cbn [sl_max].
          destruct (show_mentions r a (sl_max s1) show) as [S1 [S2 S3]]; auto; [lia|].
          split; [lia|]. split; [intros k Hk; apply S2 in Hk; lia|].
          destruct (Z.max_spec (sl_max s1) (max_step show)) as [[Hx ->]|[Hx ->]]; auto.
          destruct S3 as [S3|S3]; auto. lia.
        - apply item_call_outcome in Hp; auto.
          inversion Hp as [|C b b' cs LC h0 h' ls m st Hf Es Eh Eh' Eb Ez Hk Hh Hst Hs']; subst.
          cbn [sl_max]. destruct k as [| |w q [n|]]; destruct Hk as [-> _]; simpl;
            split; try lia; split; try (intros; lia); try tauto; lia. }
      destruct Hx as [X1 [X2 X3]]. split.
      + intros c' cur' i' k [E|Hin] Hm.
        * injection E as <- <- <-. apply X2, Hm.
        * apply (U _ _ _ _ Hin) in Hm. lia.
      + destruct X3 as [->|X3].
        * destruct L as [L|[c' [cur' [i' [Hin Hm]]]]]; auto.
          right. exists c', cur', i'. split; auto. now right.
        * right. exists c, (sl_max s1), i. split; auto. now left. }
  destruct G as [W [A [U L]]]. split; [|repeat split; auto; apply (wf_max s W)].
  destruct A as [b [Hb Eb]]. apply steps_spec; auto.
  - intros d Hd. apply (wf_steps s W) in Hd. lia.
  - apply (wf_max s W).
  - eauto.
Qed.

Lemma new_slide_start : forall w h s, new_slide w h = Ok s -> wf s /\ attained s /\ sl_max s = 1.
Proof.
  intros w h s H. split; [eapply new_slide_wf; eauto|]. unfold new_slide in H.
  destruct (new_layout 0 _) as [l|]; [|discriminate]. injection H as <-. split; auto.
  eexists. split; [now left|]. reflexivity.
Qed.

Lemma perform_max : forall s c s' r, wf s -> perform s c = (s', r) -> sl_max s <= sl_max s'.
Proof.
  intros s [r a|r k] s' res W H; simpl in H.
  - apply box_call_outcome in H; auto. destruct H; cbn [sl_max]; lia.
  - apply item_call_outcome in H; auto.
    destruct H as [e|C b b' cs LC h h' ls m st Hf Es Eh Eh' Eb Ez Hk Hh Hst]; cbn [sl_max]; try lia.
    destruct k as [| |w q [n|]]; destruct Hk as [-> _]; lia.
Qed.

(** ** C04, C05 *)
Lemma insert_painter_perm : forall p l, Permutation (insert_painter p l) (p :: l).
Proof.
  intros p l. induction l as [|q l IH]; simpl; auto.
  destruct (painter_z p <=? painter_z q); auto.
  rewrite IH. apply perm_swap.
Qed.
Lemma sort_painters_perm : forall l, Permutation (sort_painters l) l.
Proof.
  induction l as [|p l IH]; simpl; auto. rewrite insert_painter_perm. now apply perm_skip.
Qed.

Lemma sort_painters_sorted : forall l,
  StronglySorted (fun p q => painter_z p <= painter_z q) (sort_painters l).
Proof.
  induction l as [|p l IH]; simpl; [constructor|].
  induction IH as [|q l' HS IHS HF]; simpl; [repeat constructor|].
  destruct (Z.leb_spec (painter_z p) (painter_z q)).
  - constructor; [constructor; auto|]. constructor; auto.
    eapply Forall_impl; [|exact HF]. simpl. intros. lia.
  - constructor; auto. apply Forall_forall. intros x Hx.
    apply (Permutation_in _ (insert_painter_perm p l')) in Hx. destruct Hx as [<-|Hx]; [lia|].
    rewrite Forall_forall in HF. auto.
Qed.

Lemma sort_painters_stable : forall z l,
  filter (fun p => painter_z p =? z) (sort_painters l) = filter (fun p => painter_z p =? z) l.
Proof.
  intros z l. induction l as [|p l IH]; simpl; auto. rewrite <- IH. clear IH.
  assert (G := sort_painters_sorted l).
  induction G as [|q l' HS IHS HF]; simpl; auto.
  destruct (Z.leb_spec (painter_z p) (painter_z q)); simpl; auto.
  destruct (Z.eqb_spec (painter_z q) z) as [E|E].
  - rewrite IHS. destruct (Z.eqb_spec (painter_z p) z); [lia | auto].
  - rewrite IHS. auto.
Qed.

Lemma painters_walk : forall debug k n bs, forallb (fun b => is_visible (b_show b) k) bs = true ->
  get_painters debug k n =
  map snd (filter (fun x => forallb (fun b => is_visible (b_show b) k) (fst x)) (walk debug bs n)).
Proof.
  intros debug k n. induction n as [i z|b cs IH] using node_ind2; intros bs Hbs; simpl.
  - now rewrite Hbs.
  - destruct (is_visible (b_show b) k) eqn:Ev.
    + rewrite filter_app, map_app. f_equal.
      * assert (Hb : forallb (fun b => is_visible (b_show b) k) (bs ++ [b]) = true)
          by (rewrite forallb_app, Hbs; simpl; now rewrite Ev).
        induction IH as [|c cs Hc _ IHcs]; simpl; auto.
        rewrite filter_app, map_app. f_equal; auto.
      * destruct debug; simpl; auto. rewrite forallb_app, Hbs. simpl. now rewrite Ev.
    + symmetry. rewrite filter_app, map_app.
      assert (Hno : forall n bs', forallb (fun b => is_visible (b_show b) k) bs' = false ->
                filter (fun x => forallb (fun b => is_visible (b_show b) k) (fst x))
                  (walk debug bs' n) = []).
      { intro m. induction m as [i z|d ds IHm] using node_ind2; intros bs' Hf; simpl.
        - now rewrite Hf.
        - rewrite filter_app.
          assert (Hf' : forallb (fun b => is_visible (b_show b) k) (bs' ++ [d]) = false)
            by (rewrite forallb_app, Hf; reflexivity).
          replace (filter _ (if debug then _ else _)) with (@nil (list bhead * painter))
            by (destruct debug; simpl; rewrite ?Hf'; auto). rewrite app_nil_r.
          induction IHm as [|c ds Hc _ IHds]; simpl; auto. rewrite filter_app, Hc, IHds; auto. }
      assert (Hf : forallb (fun b => is_visible (b_show b) k) (bs ++ [b]) = false)
        by (rewrite forallb_app, Hbs; simpl; now rewrite Ev).
      replace (filter _ (if debug then _ else _)) with (@nil (list bhead * painter))
        by (destruct debug; simpl; rewrite ?Hf; auto). rewrite app_nil_r.
      clear IH. induction cs as [|c cs IHcs]; simpl; auto. rewrite filter_app, map_app, IHcs.
      now rewrite Hno.
Qed.

Lemma walk_under : forall n debug bs as_ i z, 
  In (as_, PItem i z) (walk debug bs n) <-> exists bs', as_ = bs ++ bs' /\ under bs' i z n.
Proof.
  intros n debug. induction n as [j z'|b cs IH] using node_ind2; intros bs as_ i z; simpl.
  - split.
    + intros [H|[]]. injection H as <- <- <-. exists []. rewrite app_nil_r. split; auto. constructor.
    + intros [bs' [-> H]]. inversion H; subst. rewrite app_nil_r. auto.
  - rewrite in_app_iff, in_flat_map. rewrite Forall_forall in IH. split.
    + intros [[c [Hc Hw]]|H].
      * apply (IH c Hc) in Hw. destruct Hw as [bs' [-> Hu]]. exists (b :: bs').
        rewrite <- app_assoc. split; auto. econstructor; eauto.
      * destruct debug; [destruct H as [H|[]]; discriminate | destruct H].
    + intros [bs' [-> H]]. inversion H; subst. left. exists c. split; auto.
      apply (IH c); auto. exists bs0. rewrite <- app_assoc. auto.
Qed.

Definition painter_id (p : painter) : nat := match p with PItem i _ | PFrame i _ => i end.

Lemma painters_ids : forall debug k n i,
  (count_occ Nat.eq_dec (map painter_id (get_painters debug k n)) i <=
   count_occ Nat.eq_dec (node_ids n) i)%nat.
Proof.
  intros debug k n i. induction n as [j z|b cs IH] using node_ind2; simpl; auto.
  destruct (is_visible (b_show b) k); [|simpl; lia].
  rewrite map_app, count_occ_app.
  assert (H1 : (count_occ Nat.eq_dec (map painter_id (flat_map (get_painters debug k) cs)) i <=
                count_occ Nat.eq_dec (flat_map node_ids cs) i)%nat).
  { induction IH as [|c cs Hc _ IHcs]; simpl; auto.
    rewrite map_app, !count_occ_app. lia. }
  assert (H2 : count_occ Nat.eq_dec (map painter_id (if debug then [PFrame (b_id b) (b_z b)] else [])) i
     = if debug then if Nat.eq_dec (b_id b) i then 1%nat else 0%nat else 0%nat).
  { destruct debug; simpl; auto. }
  rewrite H2. destruct debug, (Nat.eq_dec (b_id b) i); simpl; lia.
Qed.

Lemma painters_nodup : forall debug k n, NoDup (node_ids n) ->
  NoDup (map painter_id (get_painters debug k n)).
Proof.
  intros debug k n H. apply (NoDup_count_occ Nat.eq_dec). intro i.
  assert (H1 := painters_ids debug k n i).
  assert (H2 := proj1 (NoDup_count_occ Nat.eq_dec _) H i). lia.
Qed.

(** ** Layout and boxes *)
Lemma box_edges_insert : forall b b' pre post x, b_id b' = b_id b -> Permutation
  (box_edges (NBox b' (pre ++ x :: post)))
  (match x with NItem _ _ => [] | NBox d _ => [(b_id b, b_id d)] end ++ box_edges x ++
   box_edges (NBox b (pre ++ post))).
Proof.
  intros b b' pre post x E. cbn [box_edges]. rewrite !flat_map_app. cbn [flat_map]. rewrite E.
  set (g := fun c => match c with NItem _ _ => [] | NBox e _ => [(b_id b, b_id e)] end).
  change (match x with NItem _ _ => [] | NBox e _ => [(b_id b, b_id e)] end) with (g x).
  generalize (flat_map g pre) as A, (g x) as X1, (flat_map g post) as B,
    (flat_map box_edges pre) as A2, (box_edges x) as X2, (flat_map box_edges post) as B2.
  intros A X1 B A2 X2 B2.
  transitivity (X1 ++ (A ++ B) ++ A2 ++ X2 ++ B2).
  - rewrite !app_assoc. do 3 apply Permutation_app_tail.
    rewrite (Permutation_app_comm A X1). apply Permutation_refl.
  - apply Permutation_app_head. rewrite (Permutation_app_swap_app A2 X2).
    apply Permutation_app_swap_app.
Qed.

Lemma box_edges_fill_insert : forall C b b' pre post x, b_id b' = b_id b -> Permutation
  (box_edges (fill C (NBox b' (pre ++ x :: post))))
  (match x with NItem _ _ => [] | NBox d _ => [(b_id b, b_id d)] end ++ box_edges x ++
   box_edges (fill C (NBox b (pre ++ post)))).
Proof.
  induction C as [|[[d p] q] C IH]; intros b b' pre post x E.
  - now apply box_edges_insert.
  - simpl fill.
    assert (G : forall y y', Permutation (box_edges y') (
              match x with NItem _ _ => [] | NBox d _ => [(b_id b, b_id d)] end ++ box_edges x ++
              box_edges y) ->
              match y', y with NBox e _, NBox e' _ => b_id e = b_id e' | _, _ => False end ->
              Permutation (box_edges (fill C (NBox d (p ++ y' :: q))))
               (match x with NItem _ _ => [] | NBox d _ => [(b_id b, b_id d)] end ++ box_edges x ++
                box_edges (fill C (NBox d (p ++ y :: q))))).
    { intros y y' HP Hy.
      rewrite (IH d d p q y' eq_refl), (IH d d p q y eq_refl).
      destruct y' as [|e es], y as [|e' es']; try contradiction. rewrite Hy.
      rewrite HP. set (Z0 := box_edges (fill C (NBox d (p ++ q)))).
      generalize (match x with NItem _ _ => [] | NBox d _ => [(b_id b, b_id d)] end) as X1.
      generalize (box_edges x) as X2, (box_edges (NBox e' es')) as Y0.
      intros X2 Y0 X1. rewrite <- !app_assoc.
      rewrite (Permutation_app_swap_app [(b_id d, b_id e')] X1).
      apply Permutation_app_head. apply Permutation_app_swap_app. }
    apply G; [|exact E]. now apply box_edges_insert.
Qed.

Lemma layout_edges_insert : forall h h' pre post x, l_id h' = l_id h -> Permutation
  (layout_edges (Node h' (pre ++ x :: post)))
  ((l_id h, l_id (head x)) :: layout_edges x ++ layout_edges (Node h (pre ++ post))).
Proof.
  intros h h' pre post x E. cbn [layout_edges]. rewrite !map_app, !flat_map_app.
  cbn [map flat_map]. rewrite E.
  set (g := fun c => (l_id h, l_id (head c))).
  change (l_id h, l_id (head x)) with (g x).
  generalize (map g pre) as A, (g x) as X1, (map g post) as B,
    (flat_map layout_edges pre) as A2, (layout_edges x) as X2, (flat_map layout_edges post) as B2.
  intros A X1 B A2 X2 B2.
  transitivity ([X1] ++ (A ++ B) ++ A2 ++ X2 ++ B2).
  - rewrite !app_assoc. do 3 apply Permutation_app_tail.
    change (A ++ X1 :: B) with (A ++ [X1] ++ B). rewrite app_assoc.
    rewrite (Permutation_app_comm A [X1]). apply Permutation_refl.
  - simpl. apply perm_skip. rewrite (Permutation_app_swap_app A2 X2).
    apply Permutation_app_swap_app.
Qed.

Lemma layout_edges_fill_insert : forall C h pre post x, Permutation
  (layout_edges (lfill C (Node h (pre ++ x :: post))))
  ((l_id h, l_id (head x)) :: layout_edges x ++ layout_edges (lfill C (Node h (pre ++ post)))).
Proof.
  induction C as [|[[d p] q] C IH]; intros h pre post x.
  - now apply layout_edges_insert.
  - simpl lfill.
    rewrite (IH d p q (Node h (pre ++ x :: post))), (IH d p q (Node h (pre ++ post))).
    rewrite (layout_edges_insert h h pre post x eq_refl). cbn [head].
    set (Z0 := layout_edges (lfill C (Node d (p ++ q)))).
    generalize (layout_edges x) as X2, (layout_edges (Node h (pre ++ post))) as Y0.
    intros X2 Y0. simpl. rewrite perm_swap. apply perm_skip.
    rewrite <- app_assoc. apply (Permutation_app_swap_app [(l_id d, l_id h)] X2).
Qed.

Lemma layout_edges_head : forall C h h' ls, l_id h' = l_id h ->
  layout_edges (lfill C (Node h' ls)) = layout_edges (lfill C (Node h ls)).
Proof.
  intros C h h' ls E.
  assert (G : forall C n n', layout_edges n' = layout_edges n -> l_id (head n') = l_id (head n) ->
            layout_edges (lfill C n') = layout_edges (lfill C n)).
  { induction C0 as [|[[d p] q] C0 IH]; intros n n' H1 H2; auto. simpl. apply IH; auto.
    simpl. rewrite !map_app, !flat_map_app. simpl. now rewrite H1, H2. }
  apply G; auto. simpl. now rewrite E.
Qed.

Definition mirrored (s : slide) : Prop :=
  Permutation (layout_edges (sl_layout s)) (box_edges (sl_box s)) /\
  l_id (head (sl_layout s)) = node_id (sl_box s).

Lemma lfill_id : forall C n n', l_id (head n) = l_id (head n') ->
  l_id (head (lfill C n)) = l_id (head (lfill C n')).
Proof. induction C as [|[[d p] q] C IH]; intros n n' H; auto. simpl. now apply IH. Qed.
Lemma fill_id : forall C n n', node_id n = node_id n' ->
  node_id (fill C n) = node_id (fill C n').
Proof. induction C as [|[[d p] q] C IH]; intros n n' H; auto. simpl. now apply IH. Qed.

Lemma perform_mirrored : forall s c s' i, wf s -> mirrored s -> perform s c = (s', Ok i) ->
  mirrored s'.
Proof.
  intros s [r a|r k] s' i W [M1 M2] H; simpl in H.
  - apply box_call_outcome in H; auto. inversion H as [| | | |l C b cs LC h ls show z cs' Hl Hf Es
      Eh Hs Hz Ha Hs']; subst.
    destruct Hf as [Et Hr]. destruct (add_child_spec _ _ _ _ _ _ Ha) as [pre [post [-> [-> _]]]].
    destruct (new_layout_head _ _ _ Hl) as [hl [-> [Ei _]]].
    unfold mirrored. cbn [sl_box sl_layout]. rewrite Es, Et in M1, M2. split.
    + set (z := match ba_z a with Some z => z | None => b_z b end) in *.
      rewrite (box_edges_fill_insert C b b pre post (NBox (mkBox (sl_next s) show z) []) eq_refl).
      simpl. rewrite <- M1, <- Eh, <- Ei. destruct (ba_prepend a).
      * apply (layout_edges_fill_insert LC h [] ls (Node hl [])).
      * rewrite (layout_edges_fill_insert LC h ls [] (Node hl [])). now rewrite app_nil_r.
    + rewrite (lfill_id LC _ (Node h ls)) by reflexivity. rewrite M2. apply fill_id. reflexivity.
  - apply item_call_outcome in H; auto.
    inversion H as [|C b b' cs LC h h' ls m st Hf Es Eh Eh' Eb Ez Hk Hh Hst Hs']; subst.
    destruct Hf as [Et Hr]. unfold mirrored. cbn [sl_box sl_layout]. rewrite Es, Et in M1, M2.
    split.
    + rewrite (layout_edges_head LC h h' ls Eh').
      rewrite (box_edges_fill_insert C b b' cs [] (NItem (sl_next s) (b_z b)) Eb).
      rewrite app_nil_r. exact M1.
    + rewrite (lfill_id LC _ (Node h ls)) by (simpl; auto). rewrite M2. apply fill_id. simpl. auto.
Qed.

Lemma new_slide_mirrored : forall w h s, new_slide w h = Ok s -> mirrored s.
Proof.
  intros w h s H. unfold new_slide in H.
  destruct (new_layout 0 _) as [l|] eqn:El; [|discriminate]. simpl in H. injection H as <-.
  destruct (new_layout_head _ _ _ El) as [hl [-> [Ei _]]].
  split; simpl; auto.
Qed.

Lemma history_mirrored : forall s0 h s, wf s0 -> mirrored s0 -> history s0 h s ->
  wf s /\ mirrored s.
Proof.
  intros s0 h s W M H. induction H as [|h s1 c s2 i H IH Hp]; auto.
  destruct IH as [W1 M1]. split; [eapply perform_wf; eauto | eapply perform_mirrored; eauto].
Qed.

(** Nothing that was known about a box is lost by later calls: number, level and visibility. *)
Lemma perform_keeps : forall s c s' r b, wf s -> perform s c = (s', r) ->
  In b (boxes (sl_box s)) -> exists b', In b' (boxes (sl_box s')) /\ b_id b' = b_id b /\
    b_z b' = b_z b /\ forall k, is_visible (b_show b') k = is_visible (b_show b) k.
Proof.
  intros s [r a|r k] s' res b0 W H Hb0; simpl in H.
  - apply box_call_outcome in H; auto.
    destruct H as [Hg|e Hl|e l C b cs LC h ls Hl Hf Es Eh Hs
                  |e l C b cs LC h ls show Hl Hf Es Eh Hs Ha
                  |l C b cs LC h ls show z cs' Hl Hf Es Eh Hs Hz Ha];
      cbn [sl_box]; try (exists b0; auto; fail).
    destruct Hf as [Et Hr]. destruct (add_child_spec _ _ _ _ _ _ Ha) as [pre [post [-> [-> _]]]].
    exists b0. split; auto.
    assert (HB := boxes_insert C b pre post (NBox (mkBox (sl_next s) show z) [])).
    rewrite <- Et in HB. apply (Permutation_in _ (Permutation_sym HB)). now right.
  - apply item_call_outcome in H; auto.
    destruct H as [e|C b b' cs LC h h' ls m st Hf Es Eh Eh' Eb Ez Hk Hh Hst].
    { exists b0; auto. }
    destruct Hf as [Et Hr]. cbn [sl_box].
    rewrite Et, boxes_fill, !in_app_iff in Hb0. rewrite boxes_fill. simpl in *.
    rewrite flat_map_app. simpl. rewrite app_nil_r.
    assert (Hcase : b0 = b \/ (In b0 (before boxes (fun b => [b]) C ++
       (b' :: flat_map boxes cs) ++ after boxes (fun _ => []) C))).
    { rewrite !in_app_iff. simpl. intuition. }
    destruct Hcase as [->|Hc]; [|exists b0; auto].
    exists b'. rewrite !in_app_iff. split; [simpl; auto|]. split; auto. split; auto.
    destruct k as [| |w q [n|]]; destruct Hk as [_ ->]; auto.
Qed.
