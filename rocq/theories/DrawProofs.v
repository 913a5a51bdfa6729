(** Lemmas about the drawing of texts. *)
From Coq Require Import List ZArith NArith QArith Bool String Lia.
From Verif Require Import Py PyFacts XmlModel XmlSpec XmlProofs StyleModel StyleSpec StyleProofs
  TextModel TextSpec TextBoxModel DrawModel DrawSpec.
Import ListNotations.
Local Open Scope nat_scope.

(** ** Sequences of calls *)

(** [moves st cs st']: the calls succeed and change the stack of the writer in this way. *)
Definition moves (st : list str) (cs : list xcall) (st' : list str) : Prop :=
  forall x, x_stack x = st -> exists x', xrun x cs = Ok x' /\ x_stack x' = st'.
Lemma moves_nil : forall st, moves st [] st.
Proof. intros st x H. exists x. auto. Qed.
Lemma moves_app : forall a b s1 s2 s3, moves s1 a s2 -> moves s2 b s3 -> moves s1 (a ++ b) s3.
Proof.
  intros a b s1 s2 s3 Ha Hb x H. destruct (Ha x H) as [x1 [E1 S1]]. destruct (Hb x1 S1) as [x2 [E2 S2]].
  exists x2. rewrite xrun_app, E1. auto.
Qed.
Lemma moves_element : forall n al st, moves st (CElement n :: map set_call al) (n :: st).
Proof.
  intros n al st x H. cbn [xrun xdo]. unfold element. cbn [rbind].
  destruct (close_tag_facts x) as [S [O _]].
  match goal with |- context [xrun ?y _] => destruct (sets_run al y eq_refl) as [x' [E [S' _]]] end.
  exists x'. split; auto. rewrite S'. cbn [x_stack put_chunks]. now rewrite S, H.
Qed.
Lemma moves_text : forall t st, moves st [CText t] st.
Proof.
  intros t st x H. eexists. split; [reflexivity|]. cbn [x_stack put_chunks].
  destruct (close_tag_facts x) as [S _]. congruence.
Qed.
Lemma moves_close : forall n st, moves (n :: st) [CClose (Some n)] st.
Proof.
  intros n st x H. cbn [xrun xdo]. unfold close. rewrite H, str_eqb_refl. cbn [negb].
  destruct (x_open x); cbn [rbind]; eexists; split; reflexivity.
Qed.

(** Lawful calls, in blocks. *)
Inductive lawful_calls : list xcall -> Prop :=
| lc_nil : lawful_calls []
| lc_text : forall t cs, legal t = true -> lawful_calls cs -> lawful_calls (CText t :: cs)
| lc_close : forall c cs, lawful_calls cs -> lawful_calls (CClose c :: cs)
| lc_element : forall n al cs, is_name n = true -> NoDup (map (fun a => fst (fst a)) al) ->
    Forall (fun a => is_name (fst (fst a)) = true /\ legal_value (snd (fst a)) = true) al ->
    lawful_calls cs -> lawful_calls (CElement n :: map set_call al ++ cs).
Lemma lawful_calls_app : forall a b, lawful_calls a -> lawful_calls b -> lawful_calls (a ++ b).
Proof.
  intros a b Ha Hb. induction Ha; cbn [app]; auto; try (constructor; auto; fail).
  rewrite <- app_assoc. constructor; auto.
Qed.

Lemma lawful_calls_set : forall n v e cs, ~ lawful_calls (CSet n v e :: cs).
Proof. intros n v e cs H. inversion H. Qed.
Lemma sets_prefix : forall al al' cs cs', map set_call al ++ cs = map set_call al' ++ cs' ->
  (forall n v e r, cs <> CSet n v e :: r) -> (forall n v e r, cs' <> CSet n v e :: r) ->
  al = al' /\ cs = cs'.
Proof.
  induction al as [|[[n v] e] al IH]; intros [|[[n' v'] e'] al'] cs cs' H H1 H2; cbn [map app] in H.
  - auto.
  - exfalso. eapply H1. exact H.
  - exfalso. eapply H2. symmetry. exact H.
  - unfold set_call in H at 1 3. cbn [fst snd] in H. injection H as <- <- <- H.
    destruct (IH al' cs cs' H H1 H2) as [-> ->]. auto.
Qed.
Lemma lawful_no_set : forall cs, lawful_calls cs -> forall n v e r, cs <> CSet n v e :: r.
Proof. intros cs H n v e r ->. now apply lawful_calls_set in H. Qed.
Lemma forest_no_set : forall f rest, (forall n v e r, rest <> CSet n v e :: r) ->
  forall n v e r, forest_calls f ++ rest <> CSet n v e :: r.
Proof.
  intros [|t f] rest H n v e r; [apply H|]. unfold forest_calls. cbn [flat_map].
  destruct t; cbn; discriminate.
Qed.

Lemma lawful_tree : forall t, forall rest, lawful_calls (tree_calls t ++ rest) -> lawful t /\ lawful_calls rest.
Proof.
  intros t. induction t as [t|t|n al c ks IH] using wtree_ind'; intros rest H.
  - cbn in H. inversion H; subst. auto.
  - cbn in H. inversion H.
  - cbn [tree_calls app] in H. rewrite <- !app_assoc in H. cbn [app] in H.
    inversion H as [| | |n' al' cs Hn Hd Ha Hc [E1 E2]]; subst.
    apply sets_prefix in E2; [| now apply lawful_no_set
      | apply (forest_no_set ks); discriminate].
    destruct E2 as [-> ->].
    assert (F : forall ks rest, Forall (fun t => forall rest, lawful_calls (tree_calls t ++ rest) ->
        lawful t /\ lawful_calls rest) ks -> lawful_calls (flat_map tree_calls ks ++ rest) ->
      Forall lawful ks /\ lawful_calls rest).
    { clear. induction ks as [|k ks IHk]; intros rest HF HL; [split; auto|].
      apply Forall_cons_iff in HF. destruct HF as [F1 F2]. cbn [flat_map] in HL.
      rewrite <- app_assoc in HL. apply F1 in HL. destruct HL as [L1 L2].
      destruct (IHk _ F2 L2). auto. }
    destruct (F ks _ IH Hc) as [K1 K2]. inversion K2; subst. split; auto.
    cbn [lawful]. split; auto. split; auto. split; auto. now apply all_lawful.
Qed.
Lemma lawful_forest : forall f, lawful_calls (forest_calls f) -> Forall lawful f.
Proof.
  intros f H. unfold forest_calls in H. rewrite <- (app_nil_r (flat_map tree_calls f)) in H.
  assert (G : forall f rest, lawful_calls (flat_map tree_calls f ++ rest) -> Forall lawful f).
  { clear. induction f as [|t f IH]; intros rest H; auto. cbn [flat_map] in H.
    rewrite <- app_assoc in H. apply lawful_tree in H. destruct H as [H1 H2]. eauto. }
  eauto.
Qed.

(** The characters written by calls, with the attributes around them. *)
Fixpoint call_glyphs (stack : list (list (str * str))) (cs : list xcall)
  : list (char * list (list (str * str))) :=
  match cs with
  | [] => []
  | CText t :: cs' => map (fun c => (c, stack)) (hard_spaces t) ++ call_glyphs stack cs'
  | CRaw t :: cs' =>
      flat_map (doc_glyphs stack) (match read t with Some ns => ns | None => [] end) ++
      call_glyphs stack cs'
  | CElement _ :: cs' => call_glyphs ([] :: stack) cs'
  | CSet n v _ :: cs' =>
      match stack with
      | al :: st => call_glyphs ((al ++ [(n, v)]) :: st) cs'
      | [] => call_glyphs [] cs'
      end
  | CClose _ :: cs' => call_glyphs (tl stack) cs'
  end.
Lemma call_glyphs_sets : forall al al0 st cs,
  call_glyphs (al0 :: st) (map set_call al ++ cs) = call_glyphs ((al0 ++ map fst al) :: st) cs.
Proof.
  induction al as [|[[n v] e] al IH]; intros al0 st cs; cbn [map app].
  - now rewrite app_nil_r.
  - unfold set_call at 1. cbn [fst snd call_glyphs]. rewrite IH, <- app_assoc. reflexivity.
Qed.
Lemma call_glyphs_element : forall n al st cs,
  call_glyphs st ((CElement n :: map set_call al) ++ cs) = call_glyphs (map fst al :: st) cs.
Proof. intros. cbn [app call_glyphs]. now rewrite call_glyphs_sets. Qed.
Lemma map_chars : forall st s, flat_map (doc_glyphs st) (map NChar s) = map (fun c => (c, st)) s.
Proof. intros st s. induction s; cbn; auto. now rewrite IHs. Qed.
Lemma call_glyphs_tree : forall t st rest, call_glyphs st (tree_calls t ++ rest) =
  flat_map (doc_glyphs st) (tree_nodes t) ++ call_glyphs st rest.
Proof.
  intros t. induction t as [t|t|n al c ks IH] using wtree_ind'; intros st rest.
  - cbn [tree_calls app call_glyphs tree_nodes]. now rewrite map_chars.
  - reflexivity.
  - cbn [tree_calls app call_glyphs]. rewrite <- !app_assoc, call_glyphs_sets. cbn [app].
    assert (F : forall ks rest stack, Forall (fun t => forall st rest, call_glyphs st (tree_calls t ++ rest) =
        flat_map (doc_glyphs st) (tree_nodes t) ++ call_glyphs st rest) ks ->
      call_glyphs stack (flat_map tree_calls ks ++ rest) =
      flat_map (doc_glyphs stack) (flat_map tree_nodes ks) ++ call_glyphs stack rest).
    { clear. induction ks as [|k ks IHk]; intros rest stack HF; auto. apply Forall_cons_iff in HF.
      destruct HF as [F1 F2]. cbn [flat_map]. rewrite <- app_assoc, F1, IHk by auto.
      now rewrite flat_map_app, <- app_assoc. }
    rewrite F by auto. cbn [tree_nodes flat_map doc_glyphs call_glyphs tl]. now rewrite app_nil_r.
Qed.
Lemma call_glyphs_forest : forall f st, call_glyphs st (forest_calls f) =
  flat_map (doc_glyphs st) (forest_nodes f).
Proof.
  intros f st. unfold forest_calls, forest_nodes. induction f as [|t f IH]; auto.
  cbn [flat_map]. rewrite call_glyphs_tree, IH. now rewrite flat_map_app.
Qed.

(** ** What set_font_from_style writes *)

Section Font.
Variable fmt : pyval -> str.

Definition font_attrs (s : style) : list (str * str * bool) :=
  (if is_none (s_font s) then [] else [(pys "font-family", fmt (s_font s), true)]) ++
  (if is_none (s_size s) then [] else [(pys "font-size", fmt (s_size s), true)]) ++
  match style_string fmt s with [] => [] | css => [(pys "style", css, true)] end.
Lemma set_font_attrs : forall s, set_font fmt s = map set_call (font_attrs s).
Proof.
  intros s. unfold set_font, font_attrs. rewrite !map_app.
  destruct (is_none (s_font s)), (is_none (s_size s)), (style_string fmt s); reflexivity.
Qed.

Definition font_names : list str := map pys ["font-family"; "font-size"; "style"]%string.
Lemma font_attrs_names : forall s, NoDup (map (fun a => fst (fst a)) (font_attrs s)) /\
  (forall n, In n (map (fun a => fst (fst a)) (font_attrs s)) -> In n font_names).
Proof.
  intros s. unfold font_attrs. destruct (is_none (s_font s)), (is_none (s_size s)), (style_string fmt s);
    cbn [map app fst]; (split; [|unfold font_names; cbn [map In]; intuition]);
    repeat constructor; cbn [In]; intuition discriminate.
Qed.

Lemma legal_app : forall a b, legal_value a = true -> legal_value b = true -> legal_value (a ++ b) = true.
Proof. intros a b Ha Hb. unfold legal_value in *. rewrite forallb_app, Ha, Hb. reflexivity. Qed.

Lemma style_string_legal : forall s, printable fmt s -> legal_value (style_string fmt s) = true.
Proof.
  intros s [P _]. unfold style_string. assert (Pc := P Color). assert (Po := P Opacity). cbn [get] in Pc, Po.
  repeat apply legal_app.
  - destruct (is_none (s_color s)); auto. apply legal_app; auto. apply legal_app; auto.
  - destruct (is_none (s_opacity s)); auto. apply legal_app; auto. apply legal_app; auto.
  - destruct (truthy (s_bold s)); reflexivity.
  - destruct (truthy (s_italic s)); reflexivity.
Qed.
Lemma font_attrs_legal : forall s, printable fmt s ->
  Forall (fun a => is_name (fst (fst a)) = true /\ legal_value (snd (fst a)) = true) (font_attrs s).
Proof.
  intros s P. assert (L := style_string_legal s P). destruct P as [P _].
  assert (Pf := P Font). assert (Ps := P Size). cbn [get] in Pf, Ps. unfold font_attrs.
  apply Forall_app. split; [|apply Forall_app; split].
  - destruct (is_none (s_font s)); repeat constructor; auto.
  - destruct (is_none (s_size s)); repeat constructor; auto.
  - destruct (style_string fmt s); repeat constructor; auto.
Qed.

(** Attribute lists that look like those of a style (or of none) as far as fonts go. *)
Definition looks (al : list (str * str)) (o : option style) : Prop :=
  forall p, In p font_names ->
    lookup p al = match o with Some s => lookup p (map fst (font_attrs s)) | None => None end.

Lemma lookup_app : forall p a b, lookup p (a ++ b) =
  match lookup p a with Some v => Some v | None => lookup p b end.
Proof.
  intros p a b. induction a as [|[k v] a IH]; cbn; auto. destruct (str_eqb p k); auto.
Qed.
Lemma lookup_other : forall p al, ~ In p (map fst al) -> lookup p al = None.
Proof.
  intros p al H. induction al as [|[k v] al IH]; auto. cbn in H |- *.
  destruct (str_eqb p k) eqn:E.
  - apply str_eqb_eq in E. subst. destruct H. now left.
  - apply IH. auto.
Qed.
Lemma looks_extra : forall extra s, (forall n, In n (map fst extra) -> ~ In n font_names) ->
  looks (extra ++ map fst (font_attrs s)) (Some s).
Proof.
  intros extra s H p Hp. rewrite lookup_app, lookup_other; auto. intros X. now apply (H p).
Qed.
Lemma looks_none : forall extra, (forall n, In n (map fst extra) -> ~ In n font_names) ->
  looks extra None.
Proof. intros extra H p Hp. apply lookup_other. intros X. now apply (H p). Qed.

(** ** The values read back from the style string *)

Lemma decl_cons : forall p d rest, ~ In 59%N d ->
  declaration p (split_on 59 (d ++ pys ";" ++ rest)) =
  match split_first (pys ":") d with
  | Some (a, b) => if str_eqb (strip a) p then Some (strip b) else declaration p (split_on 59 rest)
  | None => declaration p (split_on 59 rest)
  end.
Proof.
  intros p d rest H. change (pys ";") with [59%N]. change ([59%N] ++ rest) with (59%N :: rest).
  rewrite split_on_app by auto. reflexivity.
Qed.

Definition decl_opt (p : str) (name : str) (v : option str) (rest : option str) : option str :=
  match v with
  | Some w => if str_eqb name p then Some w else rest
  | None => rest
  end.
Lemma split_first_name : forall name v, ~ In 58%N name ->
  split_first (pys ":") (name ++ pys ":" ++ v) = Some (name, v).
Proof.
  intros name v H. change (pys ":") with [58%N]. induction name as [|c name IH]; [reflexivity|].
  cbn [app split_first]. cbn [strip_prefix].
  destruct (N.eqb_spec 58 c); [subst; destruct H; now left|].
  change (58%N :: v) with ([58%N] ++ v). cbn [app] in IH |- *. rewrite IH; auto. intros X. apply H. now right.
Qed.

Lemma decl_value : forall p name v rest, ~ In 58%N name -> ~ In 59%N name -> strip name = name ->
  css_safe v ->
  declaration p (split_on 59 ((name ++ pys ":" ++ v ++ pys ";") ++ rest)) =
  decl_opt p name (Some v) (declaration p (split_on 59 rest)).
Proof.
  intros p name v rest H1 H2 H3 [H4 H5].
  replace ((name ++ pys ":" ++ v ++ pys ";") ++ rest) with ((name ++ pys ":" ++ v) ++ pys ";" ++ rest)
    by (now rewrite <- !app_assoc).
  rewrite decl_cons.
  - rewrite split_first_name by auto. rewrite H3, H5. reflexivity.
  - rewrite !in_app_iff. intros [X|[X|X]]; auto. vm_compute in X. intuition discriminate.
Qed.

Lemma is_none_shown : forall v, shown fmt v = if is_none v then None else Some (fmt v).
Proof. intros []; reflexivity. Qed.

Lemma style_decl : forall p s, printable fmt s ->
  declaration p (split_on 59 (style_string fmt s)) =
  decl_opt p (pys "fill") (shown fmt (s_color s))
    (decl_opt p (pys "fill-opacity") (shown fmt (s_opacity s))
      (decl_opt p (pys "font-weight") (if truthy (s_bold s) then Some (pys "bold") else None)
        (decl_opt p (pys "font-style") (if truthy (s_italic s) then Some (pys "italic") else None)
          None))).
Proof.
  intros p s [_ [Pc Po]]. cbn [get] in Pc, Po. unfold style_string. rewrite !is_none_shown.
  change (pys "fill:" ++ fmt (s_color s) ++ pys ";") with
    (pys "fill" ++ pys ":" ++ fmt (s_color s) ++ pys ";").
  change (pys "fill-opacity:" ++ fmt (s_opacity s) ++ pys ";") with
    (pys "fill-opacity" ++ pys ":" ++ fmt (s_opacity s) ++ pys ";").
  assert (S : forall (a : bool) (x rest : str),
    declaration p (split_on 59 ((if a then [] else x) ++ rest)) =
    if a then declaration p (split_on 59 rest) else declaration p (split_on 59 (x ++ rest))).
  { intros a x rest. destruct a; reflexivity. }
  rewrite S. rewrite (decl_value p (pys "fill") (fmt (s_color s))
    ((if is_none (s_opacity s) then [] else pys "fill-opacity" ++ pys ":" ++ fmt (s_opacity s) ++ pys ";") ++
     (if truthy (s_bold s) then pys "font-weight: bold;" else []) ++
     (if truthy (s_italic s) then pys "font-style: italic;" else []))) ; auto.
  2: vm_compute; intuition discriminate. 2: vm_compute; intuition discriminate.
  rewrite S. rewrite (decl_value p (pys "fill-opacity") (fmt (s_opacity s))
    ((if truthy (s_bold s) then pys "font-weight: bold;" else []) ++
     (if truthy (s_italic s) then pys "font-style: italic;" else []))); auto.
  2: vm_compute; intuition discriminate. 2: vm_compute; intuition discriminate.
  assert (B : declaration p (split_on 59 ((if truthy (s_bold s) then pys "font-weight: bold;" else []) ++
     (if truthy (s_italic s) then pys "font-style: italic;" else []))) =
     decl_opt p (pys "font-weight") (if truthy (s_bold s) then Some (pys "bold") else None)
        (decl_opt p (pys "font-style") (if truthy (s_italic s) then Some (pys "italic") else None) None)).
  { destruct (truthy (s_bold s)), (truthy (s_italic s)); reflexivity. }
  rewrite B. destruct (is_none (s_color s)), (is_none (s_opacity s)); reflexivity.
Qed.

Lemma declared_looks : forall p al s, looks al (Some s) ->
  declared p al = declaration p (split_on 59 (style_string fmt s)).
Proof.
  intros p al s H. unfold declared. rewrite (H (pys "style")) by (right; right; left; reflexivity).
  unfold font_attrs.
  destruct (is_none (s_font s)), (is_none (s_size s)), (style_string fmt s); reflexivity.
Qed.
Lemma declared_none : forall p al, looks al None -> declared p al = None.
Proof. intros p al H. unfold declared. now rewrite (H (pys "style")) by (right; right; left; reflexivity). Qed.
Lemma family_looks : forall al s, looks al (Some s) -> lookup (pys "font-family") al = shown fmt (s_font s).
Proof.
  intros al s H. rewrite (H (pys "font-family")) by (left; reflexivity). unfold font_attrs.
  rewrite is_none_shown.
  destruct (is_none (s_font s)), (is_none (s_size s)), (style_string fmt s); reflexivity.
Qed.
Lemma size_looks : forall al s, looks al (Some s) -> lookup (pys "font-size") al = shown fmt (s_size s).
Proof.
  intros al s H. rewrite (H (pys "font-size")) by (right; left; reflexivity). unfold font_attrs.
  rewrite is_none_shown.
  destruct (is_none (s_font s)), (is_none (s_size s)), (style_string fmt s); reflexivity.
Qed.

(** The cascade through the elements around a character. *)
Fixpoint first_some {A B} (f : A -> option B) (l : list A) : option B :=
  match l with [] => None | a :: l' => match f a with Some b => Some b | None => first_some f l' end end.
Lemma inherited_looks : forall p a around st,
  (forall al s, looks al (Some s) -> lookup p al = shown fmt (get s a)) -> In p font_names ->
  Forall2 looks around st -> inherited p around = first_some (fun s => shown fmt (get s a)) (effective st).
Proof.
  intros p a around st Hp Hin H. induction H as [|al o around st L H IH]; auto.
  destruct o as [s|]; cbn [effective flat_map app inherited first_some].
  - rewrite (Hp al s L). rewrite IH. reflexivity.
  - rewrite (L p Hin). exact IH.
Qed.
Lemma property_looks : forall p (f : style -> option str) around st,
  (forall al s, looks al (Some s) -> In (Some s) st -> declared p al = f s) ->
  Forall2 looks around st -> property p around = first_some f (effective st).
Proof.
  intros p f around st Hp H. induction H as [|al o around st L H IH]; auto.
  destruct o as [s|]; cbn [effective flat_map app property first_some].
  - rewrite (Hp al s L) by (now left). rewrite IH; auto. intros. apply Hp; auto. now right.
  - rewrite (declared_none p al L). apply IH. intros. apply Hp; auto. now right.
Qed.
Lemma first_shown : forall a l, first_some (fun s => shown fmt (get s a)) l = shown fmt (value a l).
Proof.
  intros a l. induction l as [|s l IH]; auto. cbn [first_some value].
  destruct (get s a); cbn [shown]; auto.
Qed.
Lemma value_twice : forall a l b, value a (l ++ [b; b]) = value a (l ++ [b]).
Proof.
  intros a l b. induction l as [|s l IH]; cbn [app value].
  - now destruct (get b a).
  - destruct (get s a); auto.
Qed.
(** Flags: nothing but the last style switches them off. *)
Lemma first_flag : forall a w l b, (forall s, In s l -> get s a = PNone \/ get s a = PBool true) ->
  (get b a = PNone \/ exists f, get b a = PBool f) ->
  first_some (fun s => if truthy (get s a) then Some (pys w) else None) (l ++ [b]) =
  flag (value a (l ++ [b])) w.
Proof.
  intros a w l b Hl Hb. induction l as [|s l IH]; cbn [app first_some value].
  - destruct Hb as [-> | [[] ->]]; reflexivity.
  - rewrite IH by (intros; apply Hl; now right).
    destruct (Hl s (or_introl eq_refl)) as [-> | ->]; reflexivity.
Qed.
Lemma first_flag_twice : forall a w l b,
  first_some (fun s => if truthy (get s a) then Some (pys w) else None) (l ++ [b; b]) =
  first_some (fun s => if truthy (get s a) then Some (pys w) else None) (l ++ [b]).
Proof.
  intros a w l b. induction l as [|s l IH]; cbn [app first_some].
  - destruct (truthy (get b a)); reflexivity.
  - now rewrite IH.
Qed.
Lemma effective_app : forall a b, effective (a ++ b) = effective a ++ effective b.
Proof. intros. apply flat_map_app. Qed.

(** The stack of attribute lists that corresponds to a place in the text: the elements of
    the styles, the element of the line and the text element. *)
Definition fits (base : style) (sts : surroundings) (around : list (list (str * str))) : Prop :=
  exists ls lb lt o, around = ls ++ [lb; lt] /\ Forall2 looks ls sts /\ looks lb o /\
    (o = None \/ o = Some base) /\ looks lt (Some base).

Lemma fits_look : forall base sts around c,
  (forall s, In (Some s) sts -> valid_style s /\ printable fmt s /\ ~ switches_off s) ->
  valid_style base -> printable fmt base -> fits base sts around ->
  same_look fmt ((if N.eqb c 32 then 160 else c)%N, around) (c, effective (sts ++ [Some base])).
Proof.
  intros base sts around c Hs Vb Pb [ls [lb [lt [o [-> [F [Lb [Ho Lt]]]]]]]].
  assert (FF : Forall2 looks (ls ++ [lb; lt]) (sts ++ [o; Some base])).
  { apply Forall2_app; auto. }
  assert (A : forall s, In (Some s) (sts ++ [o; Some base]) -> printable fmt s /\ valid_style s).
  { intros s X. apply in_app_or in X. destruct X as [X|[X|[X|[]]]].
    - destruct (Hs s X) as [V [P _]]. auto.
    - destruct Ho as [-> | ->]; [discriminate|]. injection X as <-. auto.
    - injection X as <-. auto. }
  assert (Ev : forall a, value a (effective (sts ++ [o; Some base])) = value a (effective (sts ++ [Some base]))).
  { intros a. rewrite !effective_app. destruct Ho as [-> | ->]; cbn [effective flat_map app]; auto.
    apply value_twice. }
  assert (Fl : forall a w, (a = Bold \/ a = Italic) ->
    first_some (fun s => if truthy (get s a) then Some (pys w) else None) (effective (sts ++ [o; Some base])) =
    flag (value a (effective (sts ++ [Some base]))) w).
  { intros a w Ha. rewrite !effective_app.
    assert (E : first_some (fun s => if truthy (get s a) then Some (pys w) else None)
       (effective sts ++ effective [o; Some base]) =
       first_some (fun s => if truthy (get s a) then Some (pys w) else None) (effective sts ++ [base])).
    { destruct Ho as [-> | ->]; cbn [effective flat_map app]; auto. apply first_flag_twice. }
    rewrite E. apply first_flag.
    - intros s X. unfold effective in X. apply in_flat_map in X. destruct X as [[s'|] [X1 X2]]; [|destruct X2].
      destruct X2 as [-> |[]]. destruct (Hs s X1) as [V [_ N]]. specialize (V a).
      unfold switches_off in N.
      assert (VV : get s a = PNone \/ exists b, get s a = PBool b)
        by (destruct Ha as [-> | ->]; exact V).
      destruct VV as [-> |[[] E']]; auto. exfalso. apply N.
      destruct Ha as [-> | ->]; auto.
    - specialize (Vb a). destruct Ha as [-> | ->]; exact Vb. }
  unfold same_look. cbn [fst snd].
  split; auto. split; [|split; [|split; [|split; [|split]]]].
  - rewrite (inherited_looks _ Font _ (sts ++ [o; Some base]) family_looks); auto;
      [|left; reflexivity]. rewrite first_shown. now rewrite Ev.
  - rewrite (inherited_looks _ Size _ (sts ++ [o; Some base]) size_looks); auto;
      [|right; left; reflexivity]. rewrite first_shown. now rewrite Ev.
  - rewrite (property_looks _ (fun s => shown fmt (get s Color)) _ (sts ++ [o; Some base])); auto.
    + rewrite first_shown. now rewrite Ev.
    + intros al s L X. rewrite (declared_looks _ _ s L), style_decl by apply A, X. cbn [get].
      destruct (s_color s); reflexivity || (destruct (s_opacity s), (truthy (s_bold s)), (truthy (s_italic s)); reflexivity).
  - rewrite (property_looks _ (fun s => shown fmt (get s Opacity)) _ (sts ++ [o; Some base])); auto.
    + rewrite first_shown. now rewrite Ev.
    + intros al s L X. rewrite (declared_looks _ _ s L), style_decl by apply A, X. cbn [get].
      destruct (s_color s); destruct (s_opacity s), (truthy (s_bold s)), (truthy (s_italic s)); reflexivity.
  - rewrite (property_looks _ (fun s => if truthy (get s Bold) then Some (pys "bold") else None) _ (sts ++ [o; Some base])); auto.
    intros al s L X. rewrite (declared_looks _ _ s L), style_decl by apply A, X. cbn [get].
    destruct (s_color s); destruct (s_opacity s), (truthy (s_bold s)), (truthy (s_italic s)); reflexivity.
  - rewrite (property_looks _ (fun s => if truthy (get s Italic) then Some (pys "italic") else None) _ (sts ++ [o; Some base])); auto.
    intros al s L X. rewrite (declared_looks _ _ s L), style_decl by apply A, X. cbn [get].
    destruct (s_color s); destruct (s_opacity s), (truthy (s_bold s)), (truthy (s_italic s)); reflexivity.
Qed.
End Font.
