(** Lemmas about the measurement of texts. *)
From Coq Require Import List ZArith NArith QArith Bool String Lia.
From Verif Require Import Py PyFacts XmlModel XmlSpec XmlProofs XmlProps StyleModel StyleSpec StyleProofs
  TextModel TextSpec TextBoxModel DrawModel DrawSpec MeasureModel MeasureSpec DrawProofs DrawLoop DrawFacts.
Import ListNotations.
Local Open Scope nat_scope.

(** ** From calls to documents *)
Definition plain (c : xcall) : Prop := match c with CRaw _ => False | _ => True end.
Lemma existsb_map_id : forall d l, existsb (fun b => b) (map (existsb (is_id d)) l) = existsb (existsb (is_id d)) l.
Proof. intros d l. induction l as [|a l IH]; [reflexivity|]. cbn [map existsb]. now rewrite IH. Qed.
Lemma marks_glyphs : forall d cs around, Forall plain cs ->
  map (within d) (call_glyphs around cs) = call_marks d (map (existsb (is_id d)) around) cs.
Proof.
  intros d. induction cs as [|c cs IH]; intros around F; [reflexivity|]. apply Forall_cons_iff in F as [Pc F].
  destruct c as [t|n|n v e|t|n]; cbn [call_glyphs call_marks].
  - destruct Pc.
  - now rewrite IH.
  - destruct around as [|al st]; [now rewrite IH|]. rewrite IH by exact F. cbn [map].
    rewrite existsb_app. cbn [existsb]. now rewrite orb_false_r.
  - rewrite map_app, IH by exact F. f_equal. rewrite map_map. unfold within. cbn [snd].
    rewrite existsb_map_id. unfold hard_spaces. now rewrite map_map.
  - rewrite IH by exact F. now destruct around.
Qed.

Definition call_ids (d : str) (cs : list xcall) : nat :=
  List.length (filter (fun c => match c with CSet n v _ => is_id d (n, v) | _ => false end) cs).
Lemma call_ids_app : forall d a b, call_ids d (a ++ b) = call_ids d a + call_ids d b.
Proof. intros. unfold call_ids. now rewrite filter_app, app_length. Qed.
Lemma count_id_app : forall d a b, count_id d (a ++ b) = count_id d a + count_id d b.
Proof. intros. unfold count_id. now rewrite flat_map_app, filter_app, app_length. Qed.
Lemma call_ids_sets : forall d al, call_ids d (map set_call al) = List.length (filter (is_id d) (map fst al)).
Proof.
  intros d al. unfold call_ids. induction al as [|[[n v] e] al IH]; [reflexivity|].
  cbn [map filter fst]. unfold set_call at 1. cbn [fst snd]. destruct (is_id d (n, v)); cbn [List.length]; now rewrite IH.
Qed.
Lemma ids_tree : forall d t, Forall plain (tree_calls t) -> call_ids d (tree_calls t) = count_id d (tree_nodes t).
Proof.
  intros d t. induction t as [t|t|n al c ks IH] using wtree_ind'; intros F.
  - cbn [tree_calls tree_nodes]. unfold count_id. enough (E : flat_map attributes (map NChar (hard_spaces t)) = []) by now rewrite E.
    induction (hard_spaces t); auto.
  - cbn in F. inversion F. contradiction.
  - cbn [tree_calls] in *. apply Forall_cons_iff in F as [_ F]. rewrite !Forall_app in F. destruct F as (_ & F & _).
    change (CElement n :: ?l) with ([CElement n] ++ l). rewrite !call_ids_app, call_ids_sets.
    assert (E : call_ids d (flat_map tree_calls ks) = count_id d (flat_map tree_nodes ks)).
    { clear -IH F. induction ks as [|k ks IHk]; [reflexivity|]. cbn [flat_map] in *. apply Forall_app in F as [F1 F2].
      apply Forall_cons_iff in IH as [I1 I2]. now rewrite call_ids_app, count_id_app, I1, IHk. }
    rewrite E. unfold count_id. cbn [tree_nodes flat_map attributes]. rewrite app_nil_r, filter_app, app_length.
    unfold call_ids. cbn [filter List.length]. lia.
Qed.
Lemma ids_forest : forall d f, Forall plain (forest_calls f) -> call_ids d (forest_calls f) = count_id d (forest_nodes f).
Proof.
  intros d f F. unfold forest_calls, forest_nodes in *. induction f as [|t f IH]; [reflexivity|].
  cbn [flat_map] in *. apply Forall_app in F as [F1 F2]. now rewrite call_ids_app, count_id_app, ids_tree, IH.
Qed.

(** ** The calls of a text *)
Section Calls.
Variable fmt : pyval -> str.
Lemma plain_sets : forall al, Forall plain (map set_call al).
Proof. intros al. apply Forall_forall. intros c H. apply in_map_iff in H as (a & <- & _). exact I. Qed.
Lemma font_calls : forall d s, Forall plain (set_font fmt s) /\ call_ids d (set_font fmt s) = 0.
Proof.
  intros d s. rewrite set_font_attrs. split; [apply plain_sets|]. rewrite call_ids_sets.
  unfold font_attrs. destruct (is_none (s_font s)), (is_none (s_size s)), (style_string fmt s); reflexivity.
Qed.
Lemma reopen_calls : forall d xs dy active j, Forall plain (reopen fmt xs dy j active) /\ call_ids d (reopen fmt xs dy j active) = 0.
Proof.
  intros d xs dy. induction active as [|[s|] active IH]; intros j; cbn [reopen].
  - split; [constructor|reflexivity].
  - destruct (IH (S j)) as [P C], (font_calls d s) as [P' C']. rewrite !call_ids_app, C, C'. split.
    + rewrite !Forall_app. split; [repeat constructor|]. split; [|auto]. destruct (Nat.eqb j 0); repeat constructor.
    + destruct (Nat.eqb j 0); reflexivity.
  - apply IH.
Qed.
Lemma closes_calls : forall d (active : list (option style)),
  Forall plain (map (fun _ => CClose (Some tspan)) active) /\ call_ids d (map (fun _ => CClose (Some tspan)) active) = 0.
Proof. intros d active. induction active as [|o l [P C]]; [split; [constructor|reflexivity]|]. split; [now constructor|exact C]. Qed.

(** The number of begin tokens with the given index. *)
Definition begins_at (k : option nat) (i : nat) (ts : list token) : nat :=
  match k with
  | Some j => if Nat.leb i j then match nth_error ts (j - i) with Some (TBegin _) => 1 | _ => 0 end else 0
  | None => 0
  end.
Lemma begins_cons : forall k i t ts, begins_at k i (t :: ts) =
  (match t, k with TBegin _, Some j => if Nat.eqb j i then 1 else 0 | _, _ => 0 end) + begins_at k (S i) ts.
Proof.
  intros [j|] i t ts; unfold begins_at; [|now destruct t].
  destruct (Nat.leb_spec i j) as [H|H].
  - destruct (Nat.eqb_spec j i) as [->|N].
    + rewrite Nat.sub_diag. cbn [nth_error]. destruct (Nat.leb_spec (S i) i); [lia|]. now destruct t.
    + destruct (Nat.leb_spec (S i) j); [|lia]. replace (j - i) with (S (j - S i)) by lia. cbn [nth_error]. now destruct t.
  - destruct (Nat.leb_spec (S i) j); [lia|]. destruct (Nat.eqb_spec j i); [lia|]. now destruct t.
Qed.
Lemma tbind_split : forall {A B} (P : list xcall -> Prop) (t : trace A) (f : A -> trace B),
  (forall a b, P a -> P b -> P (a ++ b)) -> P (fst t) -> (forall a, P (fst (f a))) -> P (fst (tbind t f)).
Proof.
  intros A B P [cs [a|e]] f Ha Ht Hf; unfold tbind; cbn [fst snd] in *; auto.
Qed.
Lemma tbind_split_ok : forall {A B} (t : trace A) (f : A -> trace B) cs b, tbind t f = (cs, Ok b) ->
  exists c1 c2 a, t = (c1, Ok a) /\ f a = (c2, Ok b) /\ cs = c1 ++ c2.
Proof.
  intros A B [cs1 r] f cs b H. unfold tbind in H. cbn [fst snd] in H. destruct r as [a|e]; [|discriminate].
  destruct (f a) as [cs2 r2] eqn:E. cbn [fst snd] in H. injection H as <- ->. eauto 10.
Qed.
Lemma loop_plain : forall xs l styles ident k ts i p active,
  Forall plain (fst (draw_loop fmt xs l styles ident k i p active ts)).
Proof.
  intros xs l styles ident k. induction ts as [|t ts IH]; intros i p active; cbn [draw_loop]; [constructor|].
  assert (A : forall a b : list xcall, Forall plain a -> Forall plain b -> Forall plain (a ++ b)) by (intros; now apply Forall_app).
  destruct t as [s|n|n|].
  - apply tbind_split; auto. repeat constructor.
  - apply tbind_split; auto. cbn [calls fst]. apply A; [apply (closes_calls [])|apply (reopen_calls [])].
  - destruct (styles n) as [s|].
    + apply tbind_split; auto; [destruct (num (s_priority s)); constructor|]. intros q. apply tbind_split; auto.
      cbn [calls fst]. constructor; [exact I|]. apply A; [|constructor; [exact I|]].
      * destruct ident; [|constructor]. destruct (match k with Some _ => _ | None => _ end); repeat constructor.
      * destruct (negb _); [constructor|apply (font_calls [])].
    + destruct (startswith (pys "#") n); [|constructor]. apply tbind_split; auto. cbn [calls fst].
      constructor; [exact I|]. apply A; [|repeat constructor].
      destruct ident; [|constructor]. destruct (match k with Some _ => _ | None => _ end); repeat constructor.
  - apply tbind_split; auto; [repeat constructor|]. intros _. destruct (rev active) as [|o [|[s|] below]]; auto; try constructor.
    apply tbind_split; auto. destruct (num (s_priority s)); constructor.
Qed.
Lemma loop_ids : forall d xs l styles k ts i p active cs r,
  draw_loop fmt xs l styles (Some d) k i p active ts = (cs, Ok r) -> call_ids d cs = begins_at k i ts.
Proof.
  intros d xs l styles k. induction ts as [|t ts IH]; intros i p active cs r H; cbn [draw_loop] in H.
  - injection H as <- _. unfold begins_at, call_ids. destruct k as [j|]; [|reflexivity]. destruct (Nat.leb i j); [|reflexivity].
    now destruct (j - i).
  - assert (ID : is_id d (pys "id", d) = true) by (unfold is_id; cbn [fst snd]; now rewrite !str_eqb_refl).
    rewrite begins_cons. destruct t as [s|n|n|].
    + apply tbind_split_ok in H as (c1 & c2 & a & H1 & H2 & ->). injection H1 as <- _.
      rewrite call_ids_app, (IH _ _ _ _ _ H2). reflexivity.
    + apply tbind_split_ok in H as (c1 & c2 & a & H1 & H2 & ->). injection H1 as <- _.
      rewrite !call_ids_app, (IH _ _ _ _ _ H2).
      rewrite (proj2 (closes_calls d active)). rewrite (proj2 (reopen_calls d _ _ active 0)). reflexivity.
    + assert (B : call_ids d (if match k with Some k0 => Nat.eqb k0 i | None => false end then [CSet (pys "id") d true] else []) =
         match k with Some j => if Nat.eqb j i then 1 else 0 | None => 0 end).
      { destruct k as [j|]; [|reflexivity]. destruct (Nat.eqb j i); [|reflexivity]. unfold call_ids. cbn [filter]. now rewrite ID. }
      destruct (styles n) as [s|].
      * apply tbind_split_ok in H as (c1 & c2 & a & H1 & H2 & ->).
        destruct (num (s_priority s)); [|discriminate]. injection H1 as <- _.
        apply tbind_split_ok in H2 as (c3 & c4 & a' & H3 & H4 & ->). injection H3 as <- _.
        cbn [app]. change (CElement tspan :: ?l) with ([CElement tspan] ++ l). rewrite !call_ids_app, (IH _ _ _ _ _ H4), B.
        change (preserve :: ?l) with ([preserve] ++ l). rewrite call_ids_app.
        replace (call_ids d (match (if negb (Qle_bool p a) then None else Some s) with Some s => set_font fmt s | None => [] end)) with 0.
        { change (call_ids d [CElement tspan]) with 0. change (call_ids d [preserve]) with 0. lia. }
        symmetry. destruct (negb (Qle_bool p a)); [reflexivity|apply font_calls].
      * destruct (startswith (pys "#") n); [|discriminate].
        apply tbind_split_ok in H as (c1 & c2 & a & H1 & H2 & ->). injection H1 as <- _.
        change (CElement tspan :: ?l) with ([CElement tspan] ++ l). rewrite !call_ids_app, (IH _ _ _ _ _ H2), B.
        change (call_ids d [CElement tspan]) with 0. change (call_ids d [preserve]) with 0. lia.
    + apply tbind_split_ok in H as (c1 & c2 & a & H1 & H2 & ->). injection H1 as <- _.
      assert (call_ids d c2 = begins_at k (S i) ts).
      { destruct (rev active) as [|o [|[s|] below]]; try discriminate; eauto.
        apply tbind_split_ok in H2 as (c3 & c4 & a' & H3 & H4 & ->).
        destruct (num (s_priority s)); [|discriminate]. injection H3 as <- _. cbn [app]. eauto. }
      rewrite call_ids_app. cbn. assumption.
Qed.
End Calls.

(** ** The whole text *)
Section Text.
Variable fmt : pyval -> str.
Lemma text_plain : forall x y ts s styles ident k tr,
  Forall plain (fst (draw_text fmt x y ts s styles ident k tr)).
Proof.
  intros x y ts s styles ident k tr. unfold draw_text.
  assert (A : forall a b : list xcall, Forall plain a -> Forall plain b -> Forall plain (a ++ b)) by (intros; now apply Forall_app).
  apply tbind_split; auto.
  { cbn [calls fst]. apply A; [repeat constructor|]. apply A; [destruct ident; [destruct k|]; repeat constructor|].
    apply A; [repeat constructor|]. destruct tr; repeat constructor. }
  intros _. apply tbind_split; auto; [destruct (anchor (s_align s)); constructor|].
  intros a. apply tbind_split; auto; [cbn [calls fst]; constructor; [exact I|apply (font_calls fmt [])]|].
  intros _. apply tbind_split; auto; [destruct (do z <- num (s_size s); do l <- num (s_line_spacing s); Ok (z * l)%Q); constructor|].
  intros l. apply tbind_split; auto; [cbn [calls fst]; constructor; [exact I|destruct (truthy (s_variant s)); repeat constructor]|].
  intros _. apply tbind_split; auto; [destruct (num (s_priority s)); constructor|].
  intros p. apply tbind_split; auto; [apply loop_plain|].
  intros active. cbn [calls fst]. apply A; [|repeat constructor].
  induction active as [|[o|] active IH]; cbn [flat_map app]; [constructor|constructor; [exact I|exact IH]|exact IH].
Qed.
Lemma text_ids : forall d x y ts s styles k tr cs,
  draw_text fmt x y ts s styles (Some d) k tr = (cs, Ok tt) ->
  call_ids d cs = match k with None => 1 | Some _ => begins_at k 0 ts end.
Proof.
  intros d x y ts s styles k tr cs H. unfold draw_text in H.
  assert (ID : is_id d (pys "id", d) = true) by (unfold is_id; cbn [fst snd]; now rewrite !str_eqb_refl).
  assert (L : forall {A} (r : result A) c a, lift r = (c, Ok a) -> c = []) by (intros A [a'|e] c a E; injection E; congruence).
  apply tbind_split_ok in H as (c1 & r1 & a1 & H1 & H & ->). injection H1 as <- _.
  apply tbind_split_ok in H as (c2 & r2 & an & H2 & H & ->). apply L in H2. subst c2.
  apply tbind_split_ok in H as (c3 & r3 & a3 & H3 & H & ->). injection H3 as <- _.
  apply tbind_split_ok in H as (c4 & r4 & ls & H4 & H & ->). apply L in H4. subst c4.
  apply tbind_split_ok in H as (c5 & r5 & a5 & H5 & H & ->). injection H5 as <- _.
  apply tbind_split_ok in H as (c6 & r6 & p & H6 & H & ->). apply L in H6. subst c6.
  apply tbind_split_ok in H as (c7 & r7 & active & H7 & H & ->). injection H as <-.
  apply loop_ids in H7.
  change (CSet (pys "text-anchor") an true :: ?l) with ([CSet (pys "text-anchor") an true] ++ l).
  change (CElement tspan :: ?l) with ([CElement tspan] ++ l).
  rewrite !call_ids_app, H7, (proj2 (font_calls fmt d s)).
  assert (Z3 : call_ids d (if truthy (s_variant s) then [CSet (pys "font-variant-numeric") (fmt (s_variant s)) true] else []) = 0)
    by (destruct (truthy (s_variant s)); reflexivity).
  assert (Z4 : call_ids d (flat_map (fun o : option style => match o with Some _ => [CClose (Some tspan)] | None => [] end) active) = 0).
  { clear. induction active as [|[o|] l IH]; [reflexivity| |exact IH]. cbn [flat_map]. rewrite call_ids_app, IH. reflexivity. }
  rewrite ?Z3, ?Z4.
  change (call_ids d [CElement tspan]) with 0.
  change (call_ids d [CSet (pys "text-anchor") an true]) with 0. change (call_ids d [CClose (Some (pys "text"))]) with 0.
  change (call_ids d []) with 0.
  match goal with |- call_ids d ?l + _ = _ =>
    assert (Z0 : call_ids d l = match k with Some _ => 0 | None => 1 end)
      by (destruct k, tr; unfold call_ids; cbn [filter app]; rewrite ?ID; reflexivity) end.
  rewrite Z0. destruct k as [j|]; [|unfold begins_at]; lia.
Qed.
Lemma text_marks : forall d x y styles k tr base ts cs,
  balanced ts -> known_names styles ts -> complete base ->
  (forall n s, styles n = Some s -> valid_style s) -> (forall n, dummyb n = true -> styles n = None) ->
  regular styles [Some base] ts ->
  draw_text fmt x y ts base styles (Some d) k tr = (cs, Ok tt) ->
  call_marks d [] cs = map (orb (match k with None => true | Some _ => false end)) (covered k 0 None ts).
Proof.
  intros d x y styles k tr base ts cs Hb Hk Hc Vs Hh Hr D.
  destruct (anchor_ok base Hc) as [a [Ea La]]. pose proof Hc as [V [_ [Nz Nl]]].
  destruct (number_ok Size _ (or_introl eq_refl) (V Size) Nz) as [z Ez].
  destruct (number_ok LineSpacing _ (or_intror eq_refl) (V LineSpacing) Nl) as [l El].
  cbn [get] in Ez, El.
  destruct (loop_facts fmt (fmt (PNum x)) (z * l) styles (Some d) k base V Vs Hh ts 0 (prio base) [] Hk)
    as [cs0 [E [_ [_ [_ K]]]]]; auto.
  { cbn. reflexivity. }
  { intros s []. }
  match type of D with ?t = _ => assert (D' : exists c', t = (c', Ok tt) /\ c' =
      (CElement (pys "text") :: map set_call (text_attrs fmt x y (Some d) k tr a) ++ set_font fmt base) ++
      (CElement tspan :: map set_call (variant_attrs fmt base) ++ []) ++ cs0 ++ [CClose (Some tspan); CClose (Some (pys "text"))]) end.
  { eexists. split.
    - unfold draw_text, calls, lift. apply tb. rewrite Ea. apply tb. apply tb. rewrite Ez, El. cbn [rbind].
      apply tb. apply tb. rewrite (num_prio base V). apply tb. cbn [rev app] in E. rewrite E. apply tb.
      reflexivity.
    - rewrite text_calls. unfold variant_attrs. rewrite !app_nil_r. cbn [app flat_map].
      rewrite <- !app_assoc. cbn [app]. rewrite <- !app_assoc.
      destruct (truthy (s_variant base)); reflexivity. }
  destruct D' as (c' & D1 & D2). assert (cs = c') by congruence. subst cs. rewrite D2.
  rewrite (marks_block fmt d (pys "text") (text_attrs fmt x y (Some d) k tr a) (Some base)).
  rewrite (marks_block fmt d tspan (variant_attrs fmt base) None).
  assert (M1 : existsb (is_id d) (map fst (text_attrs fmt x y (Some d) k tr a)) = match k with None => true | Some _ => false end).
  { unfold text_attrs. destruct k as [j|], tr as [t|]; cbn [map app existsb fst]; unfold is_id; cbn [fst snd];
      rewrite ?str_eqb_refl; reflexivity. }
  assert (M2 : existsb (is_id d) (map fst (variant_attrs fmt base)) = false).
  { unfold variant_attrs. destruct (truthy (s_variant base)); reflexivity. }
  rewrite M1, M2.
  rewrite (K d eq_refl None [match k with None => true | Some _ => false end] _ I : call_marks d (false :: [match k with None => true | Some _ => false end]) _ = _).
  cbn [existsb call_marks tl]. rewrite app_nil_r. now rewrite orb_false_r.
Qed.
End Text.
