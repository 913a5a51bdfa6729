(** Properties of slides: C03 - C07. *)
From Coq Require Import List ZArith NArith QArith Bool String Lia Permutation Sorted.
From Verif Require Import Py PyFacts ShowModel ShowSpec ShowProofs LayoutModel LayoutSpec
  LayoutProofs SlideModel SlideSpec SlideProofs.
Import ListNotations.
Open Scope Z_scope.

(** ** Concrete slides *)
Definition plain : layout_args :=
  mkLArgs ANone ANone ANone ANone None None None None None None None false.
Definition sized (w h : Q) : layout_args :=
  mkLArgs ANone ANone (ANum w) (ANum h) None None None None None None None false.
Definition bx (show : string) : box_args :=
  mkBArgs plain (ShowStr (pys show)) None false None None.
Definition blank_slide : slide :=
  match new_slide 200 100 with
  | Ok s => s
  | Err _ => mkSlide (NItem 0 0) (Node (mkHead 0 None None ANone ANone (mkSize 0 None 0 None)
               (mkSize 0 None 0 None) 0 0 0 0 false []) []) 1 1
               (mkStore (fun _ => None) (fun _ => mkText 0 0 1))
  end.
Fixpoint run (s : slide) (cs : list call) : slide :=
  match cs with [] => s | c :: cs' => run (fst (perform s c)) cs' end.

(** Box 1 (next+), item 2 in it, box 3 (1-2) below box 1, item 4 in it, SVG image 5 of five
    fragments in box 3. *)
Definition calls1 : list call :=
  [CBox 0 (bx "next+"); CItem 1 Shape;
   CBox 0 (mkBArgs (sized 20 30) (ShowStr (pys "1-2")) (Some (-1)) false None (Some 1%nat));
   CItem 3 Shape; CItem 4 (ImageItem 10 10 (Some 5))].

Definition is_ok {A} (r : result A) : bool := match r with Ok _ => true | Err _ => false end.
Fixpoint all_ok (s : slide) (cs : list call) : bool :=
  match cs with
  | [] => true
  | c :: cs' => is_ok (snd (perform s c)) && all_ok (fst (perform s c)) cs'
  end.
Lemma all_ok_history : forall cs s0 s hs, history s0 hs s -> all_ok s cs = true ->
  exists hs', history s0 hs' (run s cs) /\ List.length hs' = (List.length cs + List.length hs)%nat.
Proof.
  induction cs as [|c cs IH]; intros s0 s hs H Ha; [exists hs; auto|].
  cbn [all_ok] in Ha. apply andb_prop in Ha. destruct Ha as [H1 H2]. cbn [run].
  destruct (perform s c) as [s1 [i|e]] eqn:E; [|discriminate]. cbn [fst] in *.
  destruct (IH s0 s1 ((c, current_fragment s, i) :: hs)) as [hs' [H3 H4]]; auto.
  { eapply hi_cons; eauto. }
  exists hs'. split; auto. rewrite H4. simpl. lia.
Qed.

(** ** C03 *)
Theorem C03_fragments : forall w h s0 hs s,
  new_slide w h = Ok s0 -> history s0 hs s ->
  steps s = current_fragment s /\ 1 <= current_fragment s /\
  (forall c cur i k, In (c, cur, i) hs -> mentions_frag c cur k -> k <= current_fragment s) /\
  (current_fragment s = 1 \/
   exists c cur i, In (c, cur, i) hs /\ mentions_frag c cur (current_fragment s)).
Proof.
  intros w h s0 hs s H0 H. destruct (new_slide_start _ _ _ H0) as [W [A M]].
  destruct (fragments s0 hs s W A M H) as [H1 [H2 [H3 [H4 _]]]]. auto.
Qed.
Print Assumptions C03_fragments.

(** It never decreases, not even by rejected calls. *)
Theorem C03_fragments_grow : forall w h s0 s c s' r,
  new_slide w h = Ok s0 -> reachable s0 s -> perform s c = (s', r) ->
  current_fragment s <= current_fragment s'.
Proof.
  intros w h s0 s c s' r H0 H Hp. eapply perform_max; eauto.
  eapply reachable_wf; eauto. eapply new_slide_wf; eauto.
Qed.
Print Assumptions C03_fragments_grow.

Example ex_C03 : exists hs, history blank_slide hs (run blank_slide calls1) /\
  List.length hs = 5%nat /\ current_fragment (run blank_slide calls1) = 5 /\
  steps (run blank_slide calls1) = 5 /\ steps (run blank_slide (firstn 4 calls1)) = 2.
Proof.
  destruct (all_ok_history calls1 blank_slide blank_slide [] (hi_nil _)) as [hs [H1 H2]].
  - vm_compute. reflexivity.
  - exists hs. split; [exact H1|]. split; [rewrite H2; reflexivity|].
    vm_compute. repeat split.
Qed.

(** ** C04 *)
Theorem C04_hierarchical_visibility : forall w h s0 s, new_slide w h = Ok s0 ->
  reachable s0 s -> forall debug k i z,
  In (PItem i z) (page debug s k) <->
  exists bs, under bs i z (sl_box s) /\ Forall (fun b => is_visible (b_show b) k = true) bs.
Proof.
  intros w h s0 s H0 H debug k i z. unfold page.
  assert (E : In (PItem i z) (sort_painters (get_painters debug k (sl_box s))) <->
              In (PItem i z) (get_painters debug k (sl_box s))).
  { split; apply Permutation_in; [|apply Permutation_sym]; apply sort_painters_perm. }
  rewrite E. rewrite (painters_walk debug k (sl_box s) [] eq_refl), in_map_iff. split.
  - intros [[bs p] [Ep Hf]]. simpl in Ep. subst p. apply filter_In in Hf.
    destruct Hf as [Hw Hv]. apply walk_under in Hw. destruct Hw as [bs' [-> Hu]].
    exists bs'. split; auto. apply Forall_forall. apply forallb_forall. exact Hv.
  - intros [bs [Hu Hv]]. exists (bs, PItem i z). split; auto. apply filter_In. split.
    + apply walk_under. exists bs. auto.
    + apply forallb_forall. now apply Forall_forall.
Qed.
Print Assumptions C04_hierarchical_visibility.

(** Nothing is painted twice. *)
Theorem C04_painted_once : forall w h s0 s, new_slide w h = Ok s0 -> reachable s0 s ->
  forall debug k, NoDup (page debug s k).
Proof.
  intros w h s0 s H0 H debug k.
  assert (W : wf s) by (eapply reachable_wf; eauto; eapply new_slide_wf; eauto).
  apply (Permutation_NoDup (Permutation_sym (sort_painters_perm _))).
  apply (NoDup_map_inv painter_id). apply painters_nodup. apply (wf_nodup s W).
Qed.
Print Assumptions C04_painted_once.

Example ex_C04 : map (fun k => page false (run blank_slide calls1) k) [1; 2; 3] =
  [[PItem 4 (-1); PItem 5 (-1)]; [PItem 4 (-1); PItem 5 (-1); PItem 2 0]; [PItem 2 0]].
Proof. vm_compute. reflexivity. Qed.

(** ** C05 *)
Theorem C05_sorted : forall debug s k,
  StronglySorted (fun p q => painter_z p <= painter_z q) (page debug s k).
Proof. intros. apply sort_painters_sorted. Qed.
Print Assumptions C05_sorted.

(** Among painters of one level: the depth first order of the tree. *)
Theorem C05_stable : forall debug s k z,
  filter (fun p => painter_z p =? z) (page debug s k) =
  filter (fun p => painter_z p =? z)
    (map snd (filter (fun x => forallb (fun b => is_visible (b_show b) k) (fst x))
                (walk debug [] (sl_box s)))).
Proof.
  intros debug s k z. unfold page. rewrite sort_painters_stable.
  now rewrite (painters_walk debug k (sl_box s) [] eq_refl).
Qed.
Print Assumptions C05_stable.

Example ex_C05 : page true (run blank_slide calls1) 2 =
  [PItem 4 (-1); PItem 5 (-1); PFrame 3 (-1); PItem 2 0; PFrame 1 0; PFrame 0 0].
Proof. vm_compute. reflexivity. Qed.

(** ** C06 *)
Theorem C06_child_placement : forall w h s0 s r a s' id, new_slide w h = Ok s0 ->
  reachable s0 s -> box_call s r a = (s', Ok id) ->
  exists C b pre post new, found (sl_box s) r C b (pre ++ post) /\
    sl_box s' = fill C (NBox b (pre ++ NBox new [] :: post)) /\ b_id new = id /\
    b_z new = match ba_z a with Some z => z | None => b_z b end /\
    ~ In id (node_ids (sl_box s)) /\
    match ba_above a, ba_below a with
    | Some _, Some _ => False
    | None, Some i => exists c post', post = c :: post' /\ node_id c = i
    | Some i, None => exists pre' c, pre = pre' ++ [c] /\ node_id c = i
    | None, None => if ba_prepend a then pre = [] else post = []
    end.
Proof.
  intros w h s0 s r a s' id H0 HR H.
  assert (W : wf s) by (eapply reachable_wf; eauto; eapply new_slide_wf; eauto).
  apply box_call_outcome in H; auto. inversion H as [| | | |l C b cs LC h0 ls show z cs' Hl Hf Es
      Eh Hs Hz Ha Hs']; subst.
  destruct (add_child_spec _ _ _ _ _ _ Ha) as [pre [post [-> [-> Hp]]]].
  do 5 eexists. split; [exact Hf|]. split; [reflexivity|]. split; [reflexivity|].
  split; [reflexivity|]. split; auto. intro Hx. apply (wf_small s W) in Hx. lia.
Qed.
Print Assumptions C06_child_placement.

(** Both references, or a reference that is not a child, raise. *)
Theorem C06_bad_reference : forall w h s0 s r a C b cs, new_slide w h = Ok s0 ->
  reachable s0 s -> get_box r (sl_box s) = Some (b, cs) -> found (sl_box s) r C b cs ->
  (ba_above a <> None /\ ba_below a <> None) \/
  (exists i, (ba_above a = Some i \/ ba_below a = Some i) /\ Forall (fun c => node_id c <> i) cs) ->
  exists s' e, box_call s r a = (s', Err e).
Proof.
  intros w h s0 s r a C b cs H0 HR Hg Hf Hbad. unfold box_call. rewrite Hg.
  destruct (new_layout _ _) as [l|e]; [|eauto].
  destruct (parse_show _ _) as [show|e]; [|eauto]. cbv zeta.
  assert (He : forall x, exists e, add_child x (ba_prepend a) (ba_above a) (ba_below a) cs = Err e).
  { intro x. unfold add_child. destruct Hbad as [[Ha Hb]|[i [Hi Hn]]].
    - destruct (ba_above a), (ba_below a); try congruence. eauto.
    - assert (E : list_index i cs = Err EValue) by now apply list_index_err.
      destruct Hi as [-> | ->].
      + destruct (ba_below a); [eauto|]. rewrite E. simpl. eauto.
      + destruct (ba_above a); [eauto|]. rewrite E. simpl. eauto. }
  destruct (He (NBox (mkBox (sl_next s) show
     (match ba_z a with Some z => z | None => b_z b end)) [])) as [e ->]. eauto.
Qed.
Print Assumptions C06_bad_reference.

Example ex_C06 : exists b cs, sl_box (run blank_slide (calls1 ++
   [CBox 2 (mkBArgs plain ShowNone None false (Some 2%nat) None)])) = NBox b cs /\
   map node_id cs = [3; 1]%nat /\
   match nth_error cs 1 with Some (NBox _ ds) => map node_id ds = [2; 6]%nat | _ => False end.
Proof. vm_compute. do 2 eexists. repeat split. Qed.

(** ** C07 *)

(** Full statement: a rejected box() leaves the slide as it was.  It is false (below):
    the new layout stays registered if the show argument or the references are bad.  What
    holds: the boxes are unchanged, nothing changes if a size or position is bad, and in
    the other cases exactly one layout without a box was added. *)
Theorem C07_rejected_box_partial : forall w h s0 s r a s' e, new_slide w h = Ok s0 ->
  reachable s0 s -> box_call s r a = (s', Err e) ->
  sl_box s' = sl_box s /\ sl_store s' = sl_store s /\
  ((exists e', new_layout (sl_next s) (ba_layout a) = Err e') -> s' = s) /\
  (s' = s \/ exists l, new_layout (sl_next s) (ba_layout a) = Ok l /\
     inserted l (sl_layout s) (sl_layout s')) /\
  ((exists e', parse_show (ba_show a) (Some (current_fragment s)) = Err e') ->
     current_fragment s' = current_fragment s).
Proof.
  intros w h s0 s r a s' e H0 HR H.
  assert (W : wf s) by (eapply reachable_wf; eauto; eapply new_slide_wf; eauto).
  assert (Ins : forall LC h ls l p, inserted l (lfill LC (Node h ls))
                  (lfill LC (add_kid (Node h ls) l p))).
  { intros LC h1 ls l p.
    assert (G : forall LC n n', inserted l n n' -> inserted l (lfill LC n) (lfill LC n')).
    { induction LC0 as [|[[d p1] q1] LC0 IH]; intros n n' Hn; auto. simpl. apply IH.
      now apply ins_deep. }
    apply G. unfold add_kid. destruct p.
    - apply (ins_here l h1 [] ls).
    - rewrite <- (app_nil_r ls) at 1. apply (ins_here l h1 ls []). }
  apply box_call_outcome in H; auto.
  inversion H as [Hg|e' Hl|e' l C b cs LC h0 ls Hl Hf Es Eh Hs
                  |e' l C b cs LC h0 ls show Hl Hf Es Eh Hs Ha|]; subst;
    cbn [sl_box sl_store sl_layout]; unfold current_fragment; cbn [sl_max].
  - split; auto.
  - split; auto.
  - split; auto. split; auto. rewrite Hl, Es.
    split; [intros [? Hx]; discriminate|]. split; auto. right. eauto.
  - split; auto. split; auto. rewrite Hl, Es.
    split; [intros [? Hx]; discriminate|]. split; [right; eauto|].
    intros [? Hx]. congruence.
Qed.
Print Assumptions C07_rejected_box_partial.

(** A rejected call moves another box of the slide: with a bad selector, the box 1 of
    20 x 10 is moved up by the 40 pixels high layout that stays behind. *)
Definition rejected : call :=
  CBox 0 (mkBArgs (sized 10 40) (ShowStr (pys "2-1")) None false None None).
Definition small_box : call := CBox 0 (mkBArgs (sized 20 10) ShowNone None false None None).
Definition laid_out (s : slide) (i : nat) : option rect :=
  match prepare (sl_layout s) 200 100 (sl_store s) with
  | Ok st => st_rect st i
  | Err _ => None
  end.
Theorem C07_rejected_box_refuted : exists w h s0 s r a s' e r1 r2,
  new_slide w h = Ok s0 /\ reachable s0 s /\ box_call s r a = (s', Err e) /\
  laid_out s 1 = Some r1 /\ laid_out s' 1 = Some r2 /\ ry r1 == 45 /\ ry r2 == 25.
Proof.
  exists 200%Q, 100%Q, blank_slide, (run blank_slide [small_box]), 0%nat,
    (mkBArgs (sized 10 40) (ShowStr (pys "2-1")) None false None None).
  do 4 eexists. split; [reflexivity|]. split.
  { apply (re_cons blank_slide blank_slide small_box _
      (snd (perform blank_slide small_box))); [apply re_nil|].
    cbn [run]. apply surjective_pairing. }
  split; [vm_compute; reflexivity|].
  split; [vm_compute; reflexivity|]. split; [vm_compute; reflexivity|].
  split; vm_compute; reflexivity.
Qed.
Print Assumptions C07_rejected_box_refuted.

(** ... and one with both references raises the current fragment, which no box shows. *)
Theorem C07_rejected_fragment_refuted : exists w h s0 r a s' e,
  new_slide w h = Ok s0 /\ box_call s0 r a = (s', Err e) /\
  current_fragment s0 = 1 /\ current_fragment s' = 7 /\ steps s' = 1.
Proof.
  exists 200%Q, 100%Q, blank_slide, 0%nat,
    (mkBArgs plain (ShowInt 7) None false (Some 0%nat) (Some 0%nat)).
  do 2 eexists. split; [reflexivity|]. split; [vm_compute; reflexivity|].
  vm_compute. auto.
Qed.
Print Assumptions C07_rejected_fragment_refuted.

(** ** C67: the layout tree mirrors the box tree *)
Theorem C67_layout_mirrors_boxes : forall w h s0 hs s, new_slide w h = Ok s0 ->
  history s0 hs s -> Permutation (layout_edges (sl_layout s)) (box_edges (sl_box s)).
Proof.
  intros w h s0 hs s H0 H.
  destruct (history_mirrored s0 hs s) as [_ [M _]]; auto.
  - eapply new_slide_wf; eauto.
  - eapply new_slide_mirrored; eauto.
Qed.
Print Assumptions C67_layout_mirrors_boxes.

Theorem C67_unique_layouts : forall w h s0 s, new_slide w h = Ok s0 -> reachable s0 s ->
  NoDup (ids (sl_layout s)) /\ NoDup (node_ids (sl_box s)) /\
  forall b, box_in b (sl_box s) -> In (b_id b) (ids (sl_layout s)).
Proof.
  intros w h s0 s H0 H.
  assert (W : wf s) by (eapply reachable_wf; eauto; eapply new_slide_wf; eauto).
  split; [apply (wf_lnodup s W)|]. split; [apply (wf_nodup s W)|].
  intros b Hb. apply (wf_boxes s W). now apply box_in_boxes.
Qed.
Print Assumptions C67_unique_layouts.

Example ex_C67 : layout_edges (sl_layout (run blank_slide calls1)) = [(0, 1); (0, 3)]%nat /\
  box_edges (sl_box (run blank_slide calls1)) = [(0, 3); (0, 1)]%nat.
Proof. vm_compute. auto. Qed.

(** ** C68: no call changes the visibility, level or existence of other boxes *)
Theorem C68_calls_keep_boxes : forall w h s0 s c s' r b, new_slide w h = Ok s0 ->
  reachable s0 s -> perform s c = (s', r) -> box_in b (sl_box s) ->
  exists b', box_in b' (sl_box s') /\ b_id b' = b_id b /\ b_z b' = b_z b /\
    forall k, is_visible (b_show b') k = is_visible (b_show b) k.
Proof.
  intros w h s0 s c s' r b H0 H Hp Hb.
  assert (W : wf s) by (eapply reachable_wf; eauto; eapply new_slide_wf; eauto).
  apply box_in_boxes in Hb. destruct (perform_keeps _ _ _ _ _ W Hp Hb) as [b' [H1 H2]].
  exists b'. split; auto. now apply box_in_boxes.
Qed.
Print Assumptions C68_calls_keep_boxes.
