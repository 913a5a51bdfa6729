(** Properties of todo placeholders: C104. *)
From Coq Require Import List ZArith NArith QArith Bool String Arith Lia Lqa.
From Verif Require Import Py PyFacts ShowModel ShowSpec LayoutModel LayoutSpec LayoutProofs LayoutProps SlideModel SlideSpec
  SlideProofs RoomProofs RoomProps ListModel ShortModel ShortProps TextModel TextSpec TodoModel.
From Verif Require MarkdownProofs TextProps SlideProps.
Import ListNotations.

(** What a placeholder adds to a box with the z-level [z]: a box with a rectangle and a box in
    it, which has a rectangle and the text; the numbers of the objects start from [n], and
    everything is visible in all fragments. *)
Definition always : show_info := mkShow [] (Some 1%Z) 1%Z.
Definition frame (n : nat) (z : Z) (content : list node) : node :=
  NBox (mkBox n always z) (NItem (S n) z :: content).
Definition placeholder (n : nat) (z : Z) (label : list node) : node :=
  frame n z [frame (S (S n)) z label].
(** The text: the word TODO and, if there is a name, a line with it. *)
Definition wanted (name : option str) (own : result (option str)) : result str :=
  match (match name with None => own | Some _ => Ok name end) with
  | Err e => Err e
  | Ok None => Ok (pys "TODO")
  | Ok (Some n) => Ok (if Nat.eqb (List.length n) 0 then pys "TODO" else pys "TODO" ++ [10%N] ++ n)
  end.
(** A rectangle without a border of the given width. *)
Definition inset (q : Q) (r : rect) : rect := mkRect (rx r + q) (ry r + q) (rw r - q - q) (rh r - q - q).

(** The layout of a fill box with a padding. *)
Definition fill_head (n : nat) (q : Q) (w h : size_value) (ts : list nat) : lhead :=
  mkHead n None None (AStr (pys "fill")) (AStr (pys "fill")) w h q q q q false ts.
Definition filler (w : size_value) : Prop := sv_fill w = 1%Z /\ sv_lazy w = None.

Lemma fbox_at : forall s r b cs C LC h ls q, wf s -> get_box r (sl_box s) = Some (b, cs) ->
  sl_box s = fill C (NBox b cs) -> sl_layout s = lfill LC (Node h ls) -> l_id h = b_id b ->
  (q = 3 \/ q = 20) ->
  exists w, filler w /\ fbox s r [Kpadding (Some q)] =
    (mkSlide (fill C (NBox b (cs ++ [NBox (mkBox (sl_next s) always (b_z b)) []])))
       (lfill LC (Node h (ls ++ [Node (fill_head (sl_next s) q w w []) []]))) (sl_max s) (S (sl_next s)) (sl_store s),
     Ok (sl_next s)).
Proof.
  intros s r b cs C LC h ls q W G EB EL Eh Hq.
  unfold fbox, box_kw, box_call.
  set (a := call_args [] (fbox_kw [Kpadding (Some q)])). 
  assert (EA : a = Ok (mkBArgs (mkLArgs ANone ANone (AStr (pys "fill")) (AStr (pys "fill")) None None None None None None (Some q) false)
    ShowNone None false None None)) by reflexivity.
  rewrite EA. rewrite G. cbn [ba_layout ba_prepend ba_show ba_z ba_above ba_below].
  match goal with |- context [new_layout ?n ?x] => destruct (new_layout n x) as [l|] eqn:EN end; [|destruct Hq; subst q; vm_compute in EN; discriminate].
  assert (EN' : exists w, filler w /\ l = Node (fill_head (sl_next s) q w w []) []).
  { destruct Hq; subst q; vm_compute in EN; injection EN as <-; eexists; (split; [|reflexivity]; split; reflexivity). }
  destruct EN' as (w & Fw & ->). exists w. split; [exact Fw|].
  cbn [parse_show]. change (mk_show_info None None None) with always.
  change (max_step always) with 1%Z. cbn [set_max set_tree sl_box sl_layout sl_max sl_next sl_store add_child].
  assert (WM := wf_max s W). rewrite Z.max_l by lia.
  rewrite EL, <- Eh, upd_layout_fill by (rewrite <- EL; apply W).
  rewrite EB. unfold set_tree. cbn [sl_box sl_layout sl_max sl_next sl_store].
  rewrite Eh, upd_box_fill by (rewrite <- EB; apply W). reflexivity.
Qed.
Lemma rect_at : forall s r b cs C, wf s -> get_box r (sl_box s) = Some (b, cs) -> sl_box s = fill C (NBox b cs) ->
  item_call s r Shape =
    (mkSlide (fill C (NBox b (cs ++ [NItem (sl_next s) (b_z b)]))) (sl_layout s) (sl_max s) (S (sl_next s)) (sl_store s),
     Ok (sl_next s)).
Proof.
  intros s r b cs C W G EB. unfold item_call. rewrite G. unfold append_item.
  rewrite EB, upd_box_fill by (rewrite <- EB; apply W). reflexivity.
Qed.
Lemma text_at : forall s r b cs C LC h ls w q, wf s -> get_box r (sl_box s) = Some (b, cs) -> sl_box s = fill C (NBox b cs) ->
  sl_layout s = lfill LC (Node h ls) -> l_id h = b_id b ->
  item_call s r (TextItem w q false) =
    (mkSlide (fill C (NBox b (cs ++ [NItem (sl_next s) (b_z b)]))) (lfill LC (text_layout (sl_next s) w q false (Node h ls)))
       (sl_max s) (S (sl_next s)) (upd_text (sl_store s) (sl_next s) (mkText w q 1)), Ok (sl_next s)).
Proof.
  intros s r b cs C LC h ls w q W G EB EL Eh. unfold item_call. rewrite G. cbv zeta. unfold append_item.
  cbn [sl_box sl_layout sl_max sl_next sl_store].
  rewrite EL, <- Eh, upd_layout_fill by (rewrite <- EL; apply W).
  rewrite Eh, EB, upd_box_fill by (rewrite <- EB; apply W). reflexivity.
Qed.

Lemma get_last : forall s C b cs d ks, wf s -> sl_box s = fill C (NBox b (cs ++ [NBox d ks])) ->
  sl_box s = fill ((b, cs, []) :: C) (NBox d ks) /\ get_box (b_id d) (sl_box s) = Some (d, ks).
Proof.
  intros s C b cs d ks W E. assert (E' : sl_box s = fill ((b, cs, []) :: C) (NBox d ks)) by exact E.
  split; [exact E'|]. rewrite E'. apply MarkdownProofs.get_box_fill. rewrite <- E'. apply W.
Qed.

(** The state before the text is drawn, and the whole call. *)
Lemma frames_at : forall measure s r b cs C LC h ls name own text, wf s -> get_box r (sl_box s) = Some (b, cs) ->
  sl_box s = fill C (NBox b cs) -> sl_layout s = lfill LC (Node h ls) -> l_id h = b_id b ->
  wanted name own = Ok text ->
  let n := sl_next s in
  exists w w' s1, filler w /\ filler w' /\ wf s1 /\ reachable s s1 /\
    s1 = mkSlide (fill C (NBox b (cs ++ [placeholder n (b_z b) []])))
      (lfill LC (Node h (ls ++ [Node (fill_head n 3 w w []) [Node (fill_head (S (S n)) 20 w' w' []) []]])))
      (sl_max s) (S (S (S (S n)))) (sl_store s) /\
    todo_placeholder measure s r name own =
      then_call (todo_label measure s1 (S (S n)) text) (fun s _ => (s, Ok n)).
Proof.
  intros measure s r b cs C LC h ls name own text W G EB EL Eh HT n. unfold todo_placeholder.
  assert (HN : exists nm, match name with None => own | Some m => Ok (Some m) end = Ok nm /\ todo_text nm = text).
  { unfold wanted in HT. destruct name as [m|]; [|destruct own as [[m|]|]; try discriminate].
    - exists (Some m). split; [reflexivity|]. injection HT as <-. destruct m; reflexivity.
    - exists (Some m). split; [reflexivity|]. injection HT as <-. destruct m; reflexivity.
    - exists None. split; [reflexivity|]. injection HT as <-. reflexivity. }
  destruct HN as (nm & -> & ->).
  destruct (fbox_at s r b cs C LC h ls 3 W G EB EL Eh (or_introl eq_refl)) as (w & Fw & F1). 
  assert (P1 := F1). rewrite F1. cbn [then_call]. fold n in F1 |- *.
  set (s1 := mkSlide _ _ _ _ _) in *.
  assert (W1 : wf s1 /\ reachable s s1).
  { unfold fbox, box_kw in P1. destruct (call_args [] (fbox_kw [Kpadding (Some 3)])) as [a|] eqn:EA; [|discriminate].
    split; [exact (perform_wf s (CBox r a) _ _ W P1)|exact (re_cons s s (CBox r a) _ _ (re_nil s) P1)]. }
  destruct W1 as [W1 R1].
  destruct (get_last s1 C b cs (mkBox n always (b_z b)) [] W1 eq_refl) as [B1 G1]. cbn [b_id] in G1.
  assert (F2 := rect_at s1 n _ _ _ W1 G1 B1). assert (P2 := F2). rewrite F2. cbn [then_call].
  match type of F2 with _ = (?x, _) => set (s2 := x) in * end. assert (W2 : wf s2) by exact (perform_wf s1 (CItem n Shape) _ _ W1 P2).
  assert (R2 : reachable s s2) by exact (re_cons s s1 (CItem n Shape) _ _ R1 P2).
  destruct (get_last s2 C b cs (mkBox n always (b_z b)) [NItem (S n) (b_z b)] W2 eq_refl) as [B2 G2]. cbn [b_id] in G2.
  assert (L2 : sl_layout s2 = lfill ((h, ls, []) :: LC) (Node (fill_head n 3 w w []) [])) by reflexivity.
  destruct (fbox_at s2 n _ _ _ _ _ _ 20 W2 G2 B2 L2 eq_refl (or_intror eq_refl)) as (w' & Fw' & F3).
  assert (P3 := F3). rewrite F3. cbn [then_call]. match type of F3 with _ = (?x, _) => set (s3 := x) in * end.
  assert (W3 : wf s3 /\ reachable s s3).
  { unfold fbox, box_kw in P3. destruct (call_args [] (fbox_kw [Kpadding (Some 20)])) as [a|] eqn:EA; [|discriminate].
    split; [exact (perform_wf s2 (CBox n a) _ _ W2 P3)|exact (re_cons s s2 (CBox n a) _ _ R2 P3)]. }
  destruct W3 as [W3 R3].
  destruct (get_last s3 ((b, cs, []) :: C) (mkBox n always (b_z b)) [NItem (S n) (b_z b)] (mkBox (S (S n)) always (b_z b)) [] W3 eq_refl)
    as [B3 G3]. cbn [b_id] in G3. change (sl_next s2) with (S (S n)) in *.
  assert (F4 := rect_at s3 (S (S n)) _ _ _ W3 G3 B3). assert (P4 := F4). rewrite F4. cbn [then_call].
  match type of F4 with _ = (?x, _) => set (s4 := x) in * end. assert (W4 : wf s4) by exact (perform_wf s3 (CItem (S (S n)) Shape) _ _ W3 P4).
  exists w, w', s4. split; [exact Fw|]. split; [exact Fw'|]. split; [exact W4|].
  split; [exact (re_cons s s3 (CItem (S (S n)) Shape) _ _ R3 P4)|]. split; reflexivity.
Qed.

Lemma steps_max : forall s, wf s -> (forall b, In b (boxes (sl_box s)) -> (min_steps (b_show b) <= steps s)%Z) /\
  (1 <= steps s)%Z /\ (steps s = 1%Z \/ exists b, In b (boxes (sl_box s)) /\ min_steps (b_show b) = steps s).
Proof.
  intros s W. unfold steps. rewrite traverse_boxes. set (L := filter _ _).
  assert (HL : forall v, In v L <-> v = 1%Z \/ exists b, In b (boxes (sl_box s)) /\ min_steps (b_show b) = v).
  { intro v. unfold L. rewrite filter_In. cbn [In]. rewrite in_map_iff. split.
    - intros [[->|[b [E Hb]]] _]; eauto.
    - intros [->|[b [Hb E]]]; split; auto.
      + right. exists b. auto.
      + apply (wf_steps s W) in Hb. destruct (Z.eqb_spec v 0); auto. lia. }
  destruct (max_default_spec L 1%Z) as [H1 H2].
  { intro E. assert (In 1%Z L) by (apply HL; auto). rewrite E in H. destruct H. }
  split; [intros b Hb; apply H2, HL; eauto|]. split; [apply H2, HL; auto|]. now apply HL.
Qed.

(** A placeholder at the end of the box: if the text can be parsed, then the call succeeds and
    adds exactly the two frames and the text; nothing else in the tree of boxes changes, and
    the slide does not get longer. *)
Theorem C104_drawn : forall measure w0 h0 s0 s r b cs name own text ts, new_slide w0 h0 = Ok s0 -> reachable s0 s ->
  get_box r (sl_box s) = Some (b, cs) -> wanted name own = Ok text -> text_tokens text (pys "~") = Ok ts ->
  let n := sl_next s in
  exists s' C, todo_placeholder measure s r name own = (s', Ok n) /\ reachable s s' /\
    found (sl_box s) r C b cs /\
    sl_box s' = fill C (NBox b (cs ++ [placeholder n (b_z b) [NItem (n + 4) (b_z b)]])) /\
    steps s' = steps s /\ current_fragment s' = current_fragment s.
Proof.
  intros measure w0 h0 s0 s r b cs name own text ts H0 HR G HT HP n.
  assert (W : wf s) by (eapply reachable_wf; eauto; eapply new_slide_wf; eauto).
  destruct (wf_found s r b cs W G) as (C & LC & h & ls & F & Es & Eh). assert (F' := F). destruct F' as [EB _].
  destruct (frames_at measure s r b cs C LC h ls name own text W G EB Es Eh HT) as (w & w' & s1 & Fw & Fw' & W1 & R1 & E1 & ET).
  fold n in E1, ET.
  assert (B1 : sl_box s1 = fill ((mkBox n always (b_z b), [NItem (S n) (b_z b)], []) :: (b, cs, []) :: C)
    (NBox (mkBox (S (S n)) always (b_z b)) [NItem (S (S (S n))) (b_z b)])) by (rewrite E1; reflexivity).
  assert (G1 : get_box (S (S n)) (sl_box s1) = Some (mkBox (S (S n)) always (b_z b), [NItem (S (S (S n))) (b_z b)])).
  { rewrite B1. refine (MarkdownProofs.get_box_fill _ (mkBox (S (S n)) always (b_z b)) _ _). rewrite <- B1. apply W1. }
  assert (L1 : sl_layout s1 = lfill ((fill_head n 3 w w [], [], []) :: (h, ls, []) :: LC) (Node (fill_head (S (S n)) 20 w' w' []) []))
    by (rewrite E1; reflexivity).
  assert (F5 := text_at s1 (S (S n)) _ _ _ _ _ _ (fst (measure ts)) (snd (measure ts)) W1 G1 B1 L1 eq_refl).
  unfold todo_label in ET. rewrite HP, F5 in ET. cbn [then_call] in ET.
  match type of F5 with _ = (?x, _) => set (s2 := x) in * end.
  assert (W2 : wf s2) by exact (perform_wf s1 (CItem (S (S n)) (TextItem (fst (measure ts)) (snd (measure ts)) false)) _ _ W1 F5).
  exists s2, C. split; [exact ET|].
  split; [exact (re_cons s s1 (CItem (S (S n)) (TextItem (fst (measure ts)) (snd (measure ts)) false)) _ _ R1 F5)|].
  split; [exact F|].
  assert (EQ : sl_box s2 = fill C (NBox b (cs ++ [placeholder n (b_z b) [NItem (n + 4) (b_z b)]]))).
  { unfold s2. cbn [sl_box]. replace (n + 4)%nat with (sl_next s1) by (rewrite E1; cbn [sl_next]; lia). reflexivity. }
  split; [exact EQ|].
  assert (IB : forall d, In d (boxes (sl_box s2)) <-> In d (boxes (sl_box s)) \/ d = mkBox n always (b_z b) \/ d = mkBox (S (S n)) always (b_z b)).
  { intro d. rewrite EQ, EB, !boxes_fill, !boxes_eq, flat_map_app. cbn. rewrite !in_app_iff. cbn. rewrite !in_app_iff. cbn.
    intuition (subst; auto). }
  split; [|unfold s2, current_fragment; cbn [sl_max]; rewrite E1; reflexivity].
  destruct (steps_max s W) as (M1 & M2 & M3). apply steps_spec; [exact W2| |exact M2|].
  - intros d Hd. apply IB in Hd. destruct Hd as [Hd|[-> | ->]]; [auto|exact M2|exact M2].
  - destruct M3 as [M3|(d & Hd & Ed)]; [auto|]. right. exists d. split; [apply IB; auto|exact Ed].
Qed.
Print Assumptions C104_drawn.

(** If the name is not a valid text, the call raises, but the frames stay. Without a name (an
    item has none), it raises before anything is drawn. *)
Theorem C104_refused : forall measure w0 h0 s0 s r b cs name own, new_slide w0 h0 = Ok s0 -> reachable s0 s ->
  get_box r (sl_box s) = Some (b, cs) ->
  (forall e, wanted name own = Err e -> todo_placeholder measure s r name own = (s, Err e)) /\
  (forall text e, wanted name own = Ok text -> text_tokens text (pys "~") = Err e ->
     exists s' C, todo_placeholder measure s r name own = (s', Err e) /\ found (sl_box s) r C b cs /\
       sl_box s' = fill C (NBox b (cs ++ [placeholder (sl_next s) (b_z b) []]))).
Proof.
  intros measure w0 h0 s0 s r b cs name own H0 HR G.
  assert (W : wf s) by (eapply reachable_wf; eauto; eapply new_slide_wf; eauto). split.
  - intros e. unfold wanted, todo_placeholder. destruct name; [discriminate|]. destruct own as [[m|]|]; try discriminate.
    intros E. injection E as <-. reflexivity.
  - intros text e HT HP.
    destruct (wf_found s r b cs W G) as (C & LC & h & ls & F & Es & Eh). assert (F' := F). destruct F' as [EB _].
    destruct (frames_at measure s r b cs C LC h ls name own text W G EB Es Eh HT) as (w & w' & s1 & Fw & Fw' & W1 & R1 & E1 & ET).
    unfold todo_label in ET. rewrite HP in ET. cbn [then_call] in ET.
    exists s1, C. split; [exact ET|]. split; [exact F|]. rewrite E1. reflexivity.
Qed.
Print Assumptions C104_refused.

(** The text: with a name that has no escape character, the placeholder always shows exactly
    the word TODO and the lines of the name. *)
Theorem C104_text : forall name own text, wanted name own = Ok text ->
  (forall m, name = Some m \/ name = None /\ own = Ok (Some m) -> ~ In 126%N m) ->
  exists ts, text_tokens text (pys "~") = Ok ts /\ without_trailing 10%N text (plain ts) /\
    styled [] ts = map (fun c => (c, [])) (plain ts) /\
    number_of_lines ts = List.length (split_on 10%N (plain ts)).
Proof.
  intros name own text HT HN. change (text_tokens text (pys "~")) with (parse_text text (Some 126%N) 123%N 125%N).
  apply (TextProps.C23_plain_text (Some 126%N) 123%N 125%N text). intros x E. injection E as <-.
  assert (T : ~ In 126%N (pys "TODO")) by (vm_compute; intuition discriminate).
  assert (K : forall m, ~ In 126%N m -> ~ In 126%N (if Nat.eqb (List.length m) 0 then pys "TODO" else pys "TODO" ++ [10%N] ++ m)).
  { intros m Hm. destruct (Nat.eqb (List.length m) 0); [exact T|]. rewrite !in_app_iff. cbn [In]. intuition discriminate. }
  unfold wanted in HT. destruct name as [m|]; [|destruct own as [[m|]|]; try discriminate]; injection HT as <-.
  - apply K, HN. auto.
  - apply K, HN. auto.
  - exact T.
Qed.
Print Assumptions C104_text.

(** The place of a box that fills both directions: across the direction of its parent it has
    the size of the parent's content, and if it is alone, in both directions. *)
Lemma place_fill : forall l r st S p c R, NoDup (ids l) -> set_rect l r st = Ok S -> within p l -> In c (kids p) ->
  area p S = Some R -> (forall x, pos_arg x c = None /\ filler (size_arg x c)) ->
  exists o, outer c S o /\
    start (other (stack_axis p)) o == start (other (stack_axis p)) R /\
    extent (other (stack_axis p)) o == extent (other (stack_axis p)) R /\
    (stacked p = [c] -> req o R).
Proof.
  intros l r st S p c R ND HS Wp Hc HA CX.
  assert (FL : forall x, is_fill (size_arg x c) = true /\ is_lazy (size_arg x c) = false).
  { intro x. destruct (CX x) as (_ & X2 & X3). unfold is_fill, is_lazy. now rewrite X2, X3. }
  destruct (spans l r st S p R c (other (stack_axis p)) ND HS Wp HA Hc) as (o & O1 & O2 & O3).
  - destruct (stack_axis p); discriminate.
  - apply CX.
  - apply FL.
  - apply FL.
  - exists o. split; [exact O1|]. split; [exact O2|]. split; [exact O3|]. intros SA.
    destruct (CX (stack_axis p)) as (X1 & X2 & X3).
    destruct (C10_fill_tiles l r st S p R ND HS Wp HA) as (rs & u & F & T & _).
    + rewrite SA. repeat constructor. apply FL.
    + rewrite SA. constructor; [rewrite X2; lia|constructor].
    + rewrite SA. apply Exists_cons_hd. apply FL.
    + rewrite SA in F. inversion F as [|? o' ? rs' Ho F']; subst. inversion F'; subst.
      assert (o' = o).
      { destruct Ho as (r1 & A1 & ->). destruct O1 as (r2 & A2 & ->). rewrite A1 in A2. now injection A2 as ->. }
      subst o'. cbn [tiles] in T. destruct T as [T1 T2]. unfold stop in T2.
      unfold req. destruct (stack_axis p); cbn [other start extent] in *; repeat split; lra.
Qed.
Lemma grow_inset : forall h cs q R r, l_left h = q -> l_right h = q -> l_top h = q -> l_bottom h = q ->
  req (grow (Node h cs) r) R -> req r (inset q R).
Proof.
  intros h cs q R r E1 E2 E3 E4 (A & B & C & D). unfold grow in *. cbn [head rx ry rw rh] in *.
  rewrite E1, E2, E3, E4 in *. unfold req, inset. cbn [rx ry rw rh]. repeat split; lra.
Qed.

(** Where the placeholder is: the inner frame is 20 inside the outer one. The outer frame is 3
    inside the content area of the box across its direction, and on all sides if nothing else
    is stacked in the box. *)
Theorem C104_place : forall measure w0 h0 s0 s s' r b cs l name own id rc st S, new_slide w0 h0 = Ok s0 -> reachable s0 s ->
  get_box r (sl_box s) = Some (b, cs) -> get_layout (b_id b) (sl_layout s) = Some l ->
  todo_placeholder measure s r name own = (s', Ok id) -> set_rect (sl_layout s') rc st = Ok S ->
  exists R A I, st_rect S (b_id b) = Some R /\ st_rect S id = Some A /\ st_rect S (id + 2) = Some I /\
    req I (inset 20 A) /\
    (let a := other (stack_axis l) in start a A == start a R + 3 /\ extent a A == extent a R - 6) /\
    (stacked l = [] -> req A (inset 3 R)).
Proof.
  intros measure w0 h0 s0 s s' r b cs l name own id rc st S H0 HR G GL HC HS.
  assert (W : wf s) by (eapply reachable_wf; eauto; eapply new_slide_wf; eauto).
  destruct (wanted name own) as [text|e] eqn:HT.
  2: { destruct (C104_refused measure w0 h0 s0 s r b cs name own H0 HR G) as [X _]. rewrite (X e HT) in HC. discriminate. }
  destruct (wf_found s r b cs W G) as (C & LC & h & ls & F & Es & Eh). destruct F as [EB _].
  destruct (frames_at measure s r b cs C LC h ls name own text W G EB Es Eh HT) as (w & w' & s1 & Fw & Fw' & W1 & R1 & E1 & ET).
  set (n := sl_next s) in *.
  assert (L0 : l = Node h ls).
  { rewrite Es, <- Eh, get_layout_fill in GL by (rewrite <- Es; apply W). now injection GL as <-. }
  assert (B1 : sl_box s1 = fill ((mkBox n always (b_z b), [NItem (1 + n) (b_z b)], []) :: (b, cs, []) :: C)
    (NBox (mkBox (2 + n) always (b_z b)) [NItem (3 + n) (b_z b)])) by (rewrite E1; reflexivity).
  assert (G1 : get_box (2 + n) (sl_box s1) = Some (mkBox (2 + n) always (b_z b), [NItem (3 + n) (b_z b)])).
  { rewrite B1. refine (MarkdownProofs.get_box_fill _ (mkBox (2 + n) always (b_z b)) _ _). rewrite <- B1. apply W1. }
  assert (L1 : sl_layout s1 = lfill ((fill_head n 3 w w [], [], []) :: (h, ls, []) :: LC) (Node (fill_head (2 + n) 20 w' w' []) []))
    by (rewrite E1; reflexivity).
  rewrite ET in HC. unfold todo_label in HC. destruct (text_tokens text (pys "~")) as [ts|]; [|discriminate].
  assert (F5 := text_at s1 (2 + n) _ _ _ _ _ _ (fst (measure ts)) (snd (measure ts)) W1 G1 B1 L1 eq_refl).
  cbn [Nat.add] in F5. rewrite F5 in HC. cbn [then_call] in HC. injection HC as <- <-.
  match type of F5 with _ = (?x, _) => set (s2 := x) in * end.
  assert (W2 : wf s2) by exact (perform_wf s1 (CItem (2 + n) (TextItem (fst (measure ts)) (snd (measure ts)) false)) _ _ W1 F5).
  destruct (text_layout_id (sl_next s1) (fst (measure ts)) (snd (measure ts)) false (fill_head (2 + n) 20 w' w' []) []) as (h' & E' & _).
  assert (GR := proj1 (text_layout_grown _ _ _ _ _ _ _ (eq_sym E'))).
  set (c2 := Node h' []) in *. set (c1 := Node (fill_head n 3 w w []) [c2]). set (p := Node h (ls ++ [c1])).
  assert (L2 : sl_layout s2 = lfill LC p).
  { unfold s2. cbn [sl_layout]. cbn [Nat.add] in E'. rewrite E'. reflexivity. }
  assert (Wp : within p (sl_layout s2)) by (rewrite L2; apply within_fill).
  assert (Wc : within c1 (sl_layout s2)) by (rewrite L2; exact (within_fill ((h, ls, []) :: LC) c1)).
  assert (ND := wf_lnodup s2 W2).
  destruct (area_of _ _ _ _ p ND HS Wp) as (R & HA).
  assert (X1 : forall x, pos_arg x c1 = None /\ filler (size_arg x c1)) by (intros []; split; solve [reflexivity | exact Fw]).
  assert (X2 : forall x, pos_arg x c2 = None /\ filler (size_arg x c2)).
  { intros x. split; [destruct x; [exact (gr_x _ _ GR)|exact (gr_y _ _ GR)]|].
    destruct Fw' as [Q1 Q2]. assert (SW := gr_wsort _ _ GR). assert (SH := gr_hsort _ _ GR).
    unfold sort_of in SW, SH. injection SW as _ SW1 SW2. injection SH as _ SH1 SH2. cbn in SW1, SW2, SH1, SH2.
    destruct x; split; cbn [size_arg c2 head]; congruence. }
  destruct (place_fill _ _ _ _ p c1 R ND HS Wp ltac:(cbn; rewrite in_app_iff; right; left; reflexivity) HA X1)
    as (o1 & (A & A1 & ->) & P1 & P2 & P3).
  destruct (place_fill _ _ _ _ c1 c2 A ND HS Wc ltac:(left; reflexivity) A1 X2) as (o2 & (I & I1 & ->) & _ & _ & Q3).
  assert (SC : stacked c1 = [c2]).
  { unfold stacked. cbn [kids c1 filter]. now rewrite (proj1 (X2 _)). }
  specialize (Q3 SC).
  assert (EC : l_id (head c2) = (n + 2)%nat) by (cbn [c2 head]; rewrite (gr_id _ _ GR); cbn; lia).
  exists R, A, I. split; [rewrite <- Eh; exact HA|]. split; [exact A1|].
  split; [rewrite <- EC; exact I1|].
  split.
  { apply (grow_inset h' [] 20 A I); [exact (gr_left _ _ GR)|exact (gr_right _ _ GR)|exact (gr_top _ _ GR)|exact (gr_bottom _ _ GR)|exact Q3]. }
  subst l. change (stack_axis (Node h ls)) with (stack_axis p). split.
  - cbv zeta. unfold grow in P1, P2. destruct (stack_axis p); cbn [other start extent] in *; cbn in P1, P2; split; lra.
  - intros SE. apply (grow_inset (fill_head n 3 w w []) [c2] 3 R A); try reflexivity. apply P3.
    unfold stacked in SE |- *. change (stack_axis p) with (stack_axis (Node h ls)). cbn [kids p] in *. rewrite filter_app, SE.
    cbn [filter app]. now rewrite (proj1 (X1 _)).
Qed.
Print Assumptions C104_place.

(** The inner frame asks for the size of the text and its padding on both sides, so that all
    boxes around it that grow with their contents have room for it. *)
Theorem C104_room : forall measure w0 h0 s0 s s' r b cs name own id text ts a, new_slide w0 h0 = Ok s0 -> reachable s0 s ->
  get_box r (sl_box s) = Some (b, cs) -> wanted name own = Ok text -> text_tokens text (pys "~") = Ok ts ->
  todo_placeholder measure s r name own = (s', Ok id) ->
  exists l, get_layout (id + 2) (sl_layout s') = Some l /\
    match a with X => fst (measure ts) | Y => snd (measure ts) end + 40 <= sv_min (size_arg a l).
Proof.
  intros measure w0 h0 s0 s s' r b cs name own id text ts a H0 HR G HT HP HC.
  assert (W : wf s) by (eapply reachable_wf; eauto; eapply new_slide_wf; eauto).
  destruct (wf_found s r b cs W G) as (C & LC & h & ls & F & Es & Eh). destruct F as [EB _].
  destruct (frames_at measure s r b cs C LC h ls name own text W G EB Es Eh HT) as (w & w' & s1 & Fw & Fw' & W1 & R1 & E1 & ET).
  set (n := sl_next s) in *.
  assert (B1 : sl_box s1 = fill ((mkBox n always (b_z b), [NItem (1 + n) (b_z b)], []) :: (b, cs, []) :: C)
    (NBox (mkBox (2 + n) always (b_z b)) [NItem (3 + n) (b_z b)])) by (rewrite E1; reflexivity).
  assert (G1 : get_box (2 + n) (sl_box s1) = Some (mkBox (2 + n) always (b_z b), [NItem (3 + n) (b_z b)])).
  { rewrite B1. refine (MarkdownProofs.get_box_fill _ (mkBox (2 + n) always (b_z b)) _ _). rewrite <- B1. apply W1. }
  assert (L1 : sl_layout s1 = lfill ((fill_head n 3 w w [], [], []) :: (h, ls, []) :: LC) (Node (fill_head (2 + n) 20 w' w' []) []))
    by (rewrite E1; reflexivity).
  rewrite ET in HC. unfold todo_label in HC. rewrite HP in HC.
  assert (F5 := text_at s1 (2 + n) _ _ _ _ _ _ (fst (measure ts)) (snd (measure ts)) W1 G1 B1 L1 eq_refl).
  cbn [Nat.add] in F5. rewrite F5 in HC. cbn [then_call] in HC. injection HC as <- <-.
  match type of F5 with _ = (?x, _) => set (s2 := x) in * end.
  assert (W2 : wf s2) by exact (perform_wf s1 (CItem (2 + n) (TextItem (fst (measure ts)) (snd (measure ts)) false)) _ _ W1 F5).
  destruct (text_layout_id (sl_next s1) (fst (measure ts)) (snd (measure ts)) false (fill_head (2 + n) 20 w' w' []) []) as (h' & E' & _).
  destruct (text_layout_grown _ _ _ _ _ _ _ (eq_sym E')) as (GR & _ & Mw & Mh). cbn in Mw, Mh.
  assert (L2 : sl_layout s2 = lfill ((fill_head n 3 w w [], [], []) :: (h, ls, []) :: LC) (Node h' [])).
  { unfold s2. cbn [sl_layout]. cbn [Nat.add] in E'. rewrite E'. reflexivity. }
  exists (Node h' []). split.
  - replace (n + 2)%nat with (l_id h') by (rewrite (gr_id _ _ GR); cbn; lia).
    match goal with |- get_layout _ ?x = _ => change x with (sl_layout s2) end. rewrite L2. apply get_layout_fill.
    rewrite <- L2. apply W2.
  - destruct a; cbn [size_arg head]; [rewrite Mw|rewrite Mh];
      (eapply Qle_trans; [|apply qmax_r]); apply Qle_lteq; right; ring.
Qed.
Print Assumptions C104_room.

(** A slide of 200 x 100 with a named placeholder, then one whose name is not a text. *)
Definition sizes (ts : list token) : Q * Q := (50, inject_Z (Z.of_nat (number_of_lines ts)) * 10).
Definition todo1 : slide * result nat := todo_placeholder sizes SlideProps.blank_slide 0 (Some (pys "graph")) (Ok None).
Definition todo2 : slide * result nat := todo_placeholder sizes (fst todo1) 0 None (Ok (Some (pys "a~b{"))).
Example C104_ex : snd todo1 = Ok 1%nat /\ wanted (Some (pys "graph")) (Ok None) = Ok (pys "TODO" ++ [10%N] ++ pys "graph") /\
  (exists ts, text_tokens (pys "TODO" ++ [10%N] ++ pys "graph") (pys "~") = Ok ts /\ number_of_lines ts = 2%nat) /\
  steps (fst todo1) = 1%Z /\ stacked (sl_layout SlideProps.blank_slide) = [] /\
  exists S, set_rect (sl_layout (fst todo1)) (mkRect 0 0 200 100) empty_store = Ok S /\
    option_map (fun r => map Qred [rx r; ry r; rw r; rh r]) (st_rect S 1%nat) = Some [3; 3; 194; 94] /\
    option_map (fun r => map Qred [rx r; ry r; rw r; rh r]) (st_rect S 3%nat) = Some [23; 23; 154; 54].
Proof.
  split; [vm_compute; reflexivity|]. split; [reflexivity|].
  split; [eexists; split; vm_compute; reflexivity|]. split; [vm_compute; reflexivity|]. split; [reflexivity|].
  eexists. split; [vm_compute; reflexivity|]. vm_compute. auto.
Qed.
Example C104_refused_ex : (exists e, snd todo2 = Err e) /\ sl_next (fst todo2) = 10%nat /\
  wanted None (Err EAttribute) = Err EAttribute /\
  todo_placeholder sizes (fst todo1) 2 None (Err EAttribute) = (fst todo1, Err EAttribute).
Proof. split; [eexists; vm_compute; reflexivity|]. split; [vm_compute; reflexivity|]. split; reflexivity. Qed.
