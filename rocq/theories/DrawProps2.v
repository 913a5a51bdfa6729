(** Properties of drawn texts: what is refused (C39). *)
From Coq Require Import List ZArith NArith QArith Bool String Lia.
From Verif Require Import Py PyFacts XmlModel XmlSpec StyleModel StyleSpec StyleProofs
  TextModel TextSpec TextBoxModel DrawModel DrawSpec DrawProofs DrawLoop DrawFacts DrawProps.
Import ListNotations.
Local Open Scope nat_scope.

(** ** C39 *)

Lemma tbind_ok : forall {A B} (t : trace A) (f : A -> trace B) cs b, tbind t f = (cs, Ok b) ->
  exists cs1 a cs2, t = (cs1, Ok a) /\ f a = (cs2, Ok b) /\ cs = cs1 ++ cs2.
Proof.
  intros A B [cs1 r] f cs b H. unfold tbind in H. cbn [fst snd] in H. destruct r as [a|e]; [|discriminate].
  destruct (f a) as [cs2 r2] eqn:E. cbn [fst snd] in H. injection H as <- ->. eauto 10.
Qed.
Lemma starts_dummy : forall n, startswith (pys "#") n = true -> dummy n.
Proof.
  intros n H. rewrite dummyb_starts in H. destruct n as [|c n]; [discriminate|]. cbn in H. apply N.eqb_eq in H.
  subst. now exists n.
Qed.

Lemma loop_known : forall fmt xs l styles ident k ts i p active cs r,
  draw_loop fmt xs l styles ident k i p active ts = (cs, Ok r) -> known_names styles ts.
Proof.
  intros fmt xs l styles ident k. induction ts as [|t ts IH]; intros i p active cs r H n X; [destruct X|].
  assert (T : forall i p active cs r, draw_loop fmt xs l styles ident k i p active ts = (cs, Ok r) ->
    In (TBegin n) ts -> dummy n \/ styles n <> None).
  { intros i' p' a' cs' r' H' X'. exact (IH i' p' a' cs' r' H' n X'). }
  destruct t as [s|c|m|]; cbn [draw_loop] in H.
  - destruct X as [X|X]; [discriminate|]. apply tbind_ok in H as (? & ? & ? & _ & H & _). eauto.
  - destruct X as [X|X]; [discriminate|]. apply tbind_ok in H as (? & ? & ? & _ & H & _). eauto.
  - destruct (styles m) as [s|] eqn:E.
    + destruct X as [X|X]; [injection X as ->; right; congruence|].
      apply tbind_ok in H as (? & ? & ? & _ & H & _). apply tbind_ok in H as (? & ? & ? & _ & H & _). eauto.
    + destruct (startswith (pys "#") m) eqn:D; [|discriminate].
      destruct X as [X|X]; [injection X as ->; left; now apply starts_dummy|].
      apply tbind_ok in H as (? & ? & ? & _ & H & _). eauto.
  - destruct X as [X|X]; [discriminate|]. apply tbind_ok in H as (? & ? & ? & _ & H & _).
    destruct (rev active) as [|o [|[s|] below]]; try discriminate; eauto.
    apply tbind_ok in H as (? & ? & ? & _ & H & _). eauto.
Qed.

(** SVG: a text is drawn only if all styles that it names are known and its alignment is
    one of the three; everything else raises. *)
Theorem C39_svg_refused : forall fmt x y ts s styles ident k tr cs,
  draw_text fmt x y ts s styles ident k tr = (cs, Ok tt) ->
  known_names styles ts /\
  (s_align s = PStr (pys "left") \/ s_align s = PStr (pys "middle") \/ s_align s = PStr (pys "right")).
Proof.
  intros fmt x y ts s styles ident k tr cs H. unfold draw_text in H.
  apply tbind_ok in H as (? & ? & ? & _ & H & _). apply tbind_ok in H as (? & a & ? & Ea & H & _).
  do 4 apply tbind_ok in H as (? & ? & ? & _ & H & _). apply tbind_ok in H as (? & ? & ? & L & _).
  split; [exact (loop_known _ _ _ _ _ _ _ _ _ _ _ _ L)|].
  unfold lift, anchor in Ea. destruct (s_align s); try discriminate.
  match goal with |- PStr ?v = _ \/ _ => rename v into w end.
  destruct (str_eqb w (pys "left")) eqn:E1; [apply str_eqb_eq in E1; subst; auto|].
  destruct (str_eqb w (pys "middle")) eqn:E2; [apply str_eqb_eq in E2; subst; auto|].
  destruct (str_eqb w (pys "right")) eqn:E3; [apply str_eqb_eq in E3; subst; auto|discriminate].
Qed.
Print Assumptions C39_svg_refused.

Lemma attr_known : forall styles ts st start text empty segs st' start' text' segs',
  attr_loop styles ts st start text empty segs = Ok (st', start', text', segs') ->
  known_names styles ts /\ nest (List.length st) ts = Some (List.length st').
Proof.
  intros styles. induction ts as [|t ts IH]; intros st start text empty segs st' start' text' segs' H.
  - cbn in H. injection H as <- <- <- <-. split; [intros n []|reflexivity].
  - destruct t as [s|c|m|]; cbn [attr_loop] in H; cbn [nest].
    + destruct (IH _ _ _ _ _ _ _ _ _ H) as [K N]. split; [|exact N]. intros n [X|X]; [discriminate|now apply K].
    + destruct (IH _ _ _ _ _ _ _ _ _ H) as [K N]. split; [|exact N]. intros n [X|X]; [discriminate|now apply K].
    + destruct (active_style st) as [cur|]; [cbn [rbind] in H|discriminate].
      destruct (byte_length text) as [b|]; [cbn [rbind] in H|discriminate].
      destruct (startswith (pys "#") m) eqn:D.
      * destruct (IH _ _ _ _ _ _ _ _ _ H) as [K N]. split; [|exact N].
        intros n [X|X]; [injection X as ->; left; now apply starts_dummy|now apply K].
      * destruct (styles m) as [this|] eqn:E; [|discriminate].
        destruct (num (s_priority cur)) as [p|]; [cbn [rbind] in H|discriminate].
        destruct (num (s_priority this)) as [q|]; [cbn [rbind] in H|discriminate].
        destruct (IH _ _ _ _ _ _ _ _ _ H) as [K N]. split; [|exact N].
        intros n [X|X]; [injection X as ->; right; congruence|now apply K].
    + destruct (active_style st) as [cur|]; [cbn [rbind] in H|discriminate].
      destruct (byte_length text) as [b|]; [cbn [rbind] in H|discriminate].
      destruct st as [|o st]; [discriminate|]. cbn [List.length].
      destruct (IH _ _ _ _ _ _ _ _ _ H) as [K N]. split; [|exact N].
      intros n [X|X]; [discriminate|now apply K].
Qed.
Lemma attr_start : forall styles st start text empty segs o r ts,
  attr_loop styles (TEnd :: ts) (o :: st) start text empty segs = Ok r ->
  exists n segs', attr_loop styles ts st n text empty segs' = Ok r.
Proof.
  intros styles st start text empty segs o r ts H. cbn [attr_loop] in H.
  destruct (active_style _); [cbn [rbind] in H|discriminate].
  destruct (byte_length text); [cbn [rbind] in H|discriminate]. eauto.
Qed.
(** A list that ends the outermost entry never recovers. *)
Lemma attr_below : forall styles ts start text empty segs st' start' text' segs',
  attr_loop styles ts [] start text empty segs = Ok (st', start', text', segs') -> st' = [].
Proof.
  intros styles. induction ts as [|t ts IH]; intros start text empty segs st' start' text' segs' H.
  - cbn in H. now injection H as <- _ _ _.
  - destruct t as [s|c|m|]; cbn [attr_loop] in H; eauto; discriminate.
Qed.
Lemma attr_nest : forall styles ts st o start text empty segs st' start' text' segs',
  attr_loop styles ts (st ++ [o]) start text empty segs = Ok (st', start', text', segs') ->
  st' = [] \/ exists k, nest (List.length st) ts = Some k /\ List.length st' = S k.
Proof.
  intros styles. induction ts as [|t ts IH]; intros st o start text empty segs st' start' text' segs' H.
  - cbn in H. injection H as <- _ _ _. right. exists (List.length st). split; [reflexivity|].
    rewrite app_length. cbn. lia.
  - destruct t as [s|c|m|].
    + cbn [attr_loop nest] in *. eauto.
    + cbn [attr_loop nest] in *. eauto.
    + cbn [attr_loop nest] in *. destruct (active_style (st ++ [o])) as [cur|]; [cbn [rbind] in H|discriminate].
      destruct (byte_length text) as [b|]; [cbn [rbind] in H|discriminate].
      destruct (startswith (pys "#") m) eqn:D; [exact (IH (None :: st) _ _ _ _ _ _ _ _ _ H)|].
      destruct (styles m) as [this|] eqn:E; [|discriminate].
      destruct (num (s_priority cur)) as [p|]; [cbn [rbind] in H|discriminate].
      destruct (num (s_priority this)) as [q|]; [cbn [rbind] in H|discriminate].
      exact (IH (_ :: st) _ _ _ _ _ _ _ _ _ H).
    + destruct st as [|u st].
      * apply attr_start in H as (n & g & H). left. exact (attr_below _ _ _ _ _ _ _ _ _ _ H).
      * apply attr_start in H as (n & g & H). cbn [nest List.length]. eauto.
Qed.

(** Cairo: a text is drawn only if it is balanced, all styles that it names are known and
    there is a default style; everything else raises. *)
Theorem C39_cairo_refused : forall ts s styles out,
  text_and_attributes ts s styles = Ok out -> balanced ts /\ known_names styles ts /\ styles default_ <> None.
Proof.
  intros ts s styles out H. unfold text_and_attributes in H.
  destruct (styles default_) as [d|]; [|discriminate].
  destruct (attr_loop styles ts [Some (compose d s)] 0 [] true []) as [[[[st start] text] segs]|] eqn:E;
    [cbn [rbind] in H|discriminate].
  destruct (byte_length text) as [n|]; [cbn [rbind] in H|discriminate].
  match type of H with (do x <- ?r; _) = _ => destruct r; [cbn [rbind] in H|discriminate] end.
  destruct st as [|[b|] [|]]; try discriminate.
  destruct (attr_nest styles ts [] _ _ _ _ _ _ _ _ _ E) as [K|(k & K1 & K2)]; [discriminate|].
  cbn [List.length] in K1, K2. injection K2 as <-. split; [exact K1|]. split; [|discriminate].
  exact (proj1 (attr_known _ _ _ _ _ _ _ _ _ _ _ E)).
Qed.
Print Assumptions C39_cairo_refused.

Example ex_C39_refused :
  perform new_xml (draw_text ex_fmt 0 0 [TBegin (pys "nope"); TText (pys "x"); TEnd] ex_base ex_styles None None None)
    = Err EException /\
  text_and_attributes [TText (pys "x"); TEnd; TBegin (pys "b")] ex_base ex_styles = Err EIndex /\
  text_and_attributes [TBegin (pys "b"); TText (pys "x")] ex_base ex_styles = Err EAssertion /\
  (exists out, text_and_attributes ex_ts ex_base ex_styles = Ok out) /\
  exists cs, draw_text ex_fmt 0 0 ex_ts ex_base ex_styles None None None = (cs, Ok tt).
Proof. repeat split; try (eexists; vm_compute; reflexivity); vm_compute; reflexivity. Qed.

(** Nothing but text and tspan elements is written, with attributes of text only, all of
    them escaped, and the strings between them are those of the text, in their order, however
    the styles are nested. *)
Definition text_attributes : list str := map pys
  ["id"; "x"; "y"; "dy"; "transform"; "text-anchor"; "font-family"; "font-size"; "style"; "xml:space";
   "font-variant-numeric"]%string.
Definition inside_text (c : xcall) : Prop :=
  match c with
  | CElement n => n = pys "tspan"
  | CClose o => o = Some (pys "tspan")
  | CSet n _ escape => In n text_attributes /\ escape = true
  | CText _ => True
  | CRaw _ => False
  end.
Definition strings_written (cs : list xcall) : list str :=
  flat_map (fun c => match c with CText t => [t] | _ => [] end) cs.
Definition strings_of (ts : list token) : list str :=
  flat_map (fun t => match t with TText s => [s] | _ => [] end) ts.

Lemma written_app : forall a b, strings_written (a ++ b) = strings_written a ++ strings_written b.
Proof. intros. apply flat_map_app. Qed.
Ltac listed := unfold preserve, inside_text; split; [unfold text_attributes; cbn [map In]; tauto|reflexivity].
Lemma font_inside : forall fmt s, Forall inside_text (set_font fmt s) /\ strings_written (set_font fmt s) = [].
Proof.
  intros fmt s. unfold set_font.
  destruct (is_none (s_font s)), (is_none (s_size s)), (style_string fmt s);
    (split; [repeat constructor; listed|reflexivity]).
Qed.
Lemma reopen_inside : forall fmt x dy active j,
  Forall inside_text (reopen fmt x dy j active) /\ strings_written (reopen fmt x dy j active) = [].
Proof.
  intros fmt x dy. induction active as [|[s|] rest IH]; intros j; cbn [reopen]; [split; constructor| |apply IH].
  - destruct (IH (S j)) as [A B]. destruct (font_inside fmt s) as [C D]. split.
    + apply Forall_app; split; [repeat constructor; listed|]. apply Forall_app; split.
      { destruct (Nat.eqb j 0); repeat constructor; listed. } { apply Forall_app; split; auto. }
    + rewrite !written_app, B, D. destruct (Nat.eqb j 0); reflexivity.
Qed.
Lemma close_inside : forall {A} (l : list A), Forall inside_text (map (fun _ => CClose (Some tspan)) l) /\
  strings_written (map (fun _ => CClose (Some tspan)) l) = [].
Proof. intros A l. induction l as [|a l [H1 H2]]; cbn; split; auto. constructor; auto. reflexivity. Qed.
Lemma loop_inside : forall fmt xs l styles ident k ts i p active cs r,
  draw_loop fmt xs l styles ident k i p active ts = (cs, Ok r) ->
  Forall inside_text cs /\ strings_written cs = strings_of ts.
Proof.
  intros fmt xs l styles ident k. induction ts as [|t ts IH]; intros i p active cs r H.
  { injection H as <- _. split; constructor. }
  destruct t as [s|c|m|]; cbn [draw_loop] in H.
  - apply tbind_ok in H as (c1 & ? & c2 & H1 & H & ->). injection H1 as <- _. apply IH in H as [A B].
    split; [constructor; [exact I|auto]|]. cbn. f_equal. exact B.
  - apply tbind_ok in H as (c1 & ? & c2 & H1 & H & ->). injection H1 as <- _. apply IH in H as [A B].
    destruct (close_inside active) as [C D].
    destruct (reopen_inside fmt xs (fmt (PNum (l * inject_Z (Z.of_nat c)))) active 0) as [E F].
    split; [repeat (apply Forall_app; split); auto|]. rewrite !written_app, D, F, B. reflexivity.
  - destruct (styles m) as [s|].
    + apply tbind_ok in H as (c0 & p' & c9 & H0 & H & ->). injection H0 as <- _. cbn [app].
      apply tbind_ok in H as (c1 & ? & c2 & H1 & H & ->). injection H1 as <- _. apply IH in H as [A B].
      set (o := if negb (Qle_bool p p') then None else Some s) in *. clearbody o.
      assert (F : Forall inside_text (match o with Some s => set_font fmt s | None => [] end) /\
        strings_written (match o with Some s => set_font fmt s | None => [] end) = []).
      { destruct o; [apply font_inside|split; constructor]. }
      destruct F as [C D]. split.
      * apply Forall_app; split; auto. constructor; [reflexivity|].
        apply Forall_app; split; [|constructor; [listed|auto]].
        destruct ident; [destruct (match k with Some k => Nat.eqb k i | None => false end)|]; repeat constructor; listed.
      * rewrite written_app, B. change (CElement tspan :: ?l) with ([CElement tspan] ++ l).
        rewrite !written_app. change (preserve :: ?l) with ([preserve] ++ l). rewrite written_app, D.
        destruct ident; [destruct (match k with Some k => Nat.eqb k i | None => false end)|]; reflexivity.
    + destruct (startswith (pys "#") m); [|discriminate].
      apply tbind_ok in H as (c1 & ? & c2 & H1 & H & ->). injection H1 as <- _. apply IH in H as [A B]. split.
      * apply Forall_app; split; auto. constructor; [reflexivity|].
        destruct ident; [destruct (match k with Some k => Nat.eqb k i | None => false end)|]; repeat constructor; listed.
      * rewrite written_app, B.
        destruct ident; [destruct (match k with Some k => Nat.eqb k i | None => false end)|]; reflexivity.
  - apply tbind_ok in H as (c1 & ? & c2 & H1 & H & ->). injection H1 as <- _.
    assert (Q : Forall inside_text c2 /\ strings_written c2 = strings_of ts).
    { destruct (rev active) as [|o [|[s|] below]]; try discriminate; eauto.
      apply tbind_ok in H as (c0 & ? & c9 & H0 & H & ->). injection H0 as <- _. cbn [app]. eauto. }
    destruct Q as [A B]. split; [constructor; auto; reflexivity|exact B].
Qed.

Theorem C39_svg_elements : forall fmt x y ts s styles ident k tr cs,
  draw_text fmt x y ts s styles ident k tr = (cs, Ok tt) ->
  exists inside, cs = CElement (pys "text") :: inside ++ [CClose (Some (pys "text"))] /\
    Forall inside_text inside /\ strings_written inside = strings_of ts.
Proof.
  intros fmt x y ts s styles ident k tr cs H. unfold draw_text in H.
  apply tbind_ok in H as (c1 & ? & r1 & H1 & H & ->). injection H1 as <- _.
  apply tbind_ok in H as (c2 & a & r2 & H2 & H & ->). injection H2 as <- _. cbn [app].
  apply tbind_ok in H as (c3 & ? & r3 & H3 & H & ->). injection H3 as <- _.
  apply tbind_ok in H as (c4 & ls & r4 & H4 & H & ->). injection H4 as <- _. cbn [app].
  apply tbind_ok in H as (c5 & ? & r5 & H5 & H & ->). injection H5 as <- _.
  apply tbind_ok in H as (c6 & p & r6 & H6 & H & ->). injection H6 as <- _. cbn [app].
  apply tbind_ok in H as (c7 & active & r7 & H7 & H & ->). injection H as <-.
  destruct (loop_inside _ _ _ _ _ _ _ _ _ _ _ _ H7) as [A B].
  destruct (font_inside fmt s) as [C D].
  set (head := match ident, k with Some d, None => [CSet (pys "id") d true] | _, _ => [] end ++
    [CSet (pys "x") (fmt (PNum x)) true; CSet (pys "y") (fmt (PNum y)) true] ++
    match tr with Some t => [CSet (pys "transform") t true] | None => [] end).
  set (var := if truthy (s_variant s) then [CSet (pys "font-variant-numeric") (fmt (s_variant s)) true] else []).
  set (ends := flat_map (fun o : option style => match o with Some _ => [CClose (Some tspan)] | None => [] end) active).
  exists (head ++ (CSet (pys "text-anchor") a true :: set_font fmt s) ++ (CElement tspan :: var) ++ c7 ++ ends).
  assert (Hh : Forall inside_text head /\ strings_written head = []).
  { unfold head. destruct ident, k, tr; (split; [repeat constructor; listed|reflexivity]). }
  assert (Hv : Forall inside_text var /\ strings_written var = []).
  { unfold var. destruct (truthy (s_variant s)); (split; [repeat constructor; listed|reflexivity]). }
  assert (He : Forall inside_text ends /\ strings_written ends = []).
  { unfold ends. clear. induction active as [|[o|] l [IH1 IH2]]; cbn; split; auto. constructor; [reflexivity|auto]. }
  destruct Hh as [Hh1 Hh2], Hv as [Hv1 Hv2], He as [He1 He2]. split; [|split].
  - unfold head. repeat ((progress (rewrite <- ?app_assoc)) || (progress cbn [app])). fold ends. reflexivity.
  - clearbody head var ends. repeat (apply Forall_app; split); auto; constructor; auto; try listed. reflexivity.
  - change (CSet (pys "text-anchor") a true :: set_font fmt s) with ([CSet (pys "text-anchor") a true] ++ set_font fmt s).
    change (CElement tspan :: var) with ([CElement tspan] ++ var).
    rewrite !written_app, Hh2, B, He2, D, Hv2, !app_nil_r. reflexivity.
Qed.
Print Assumptions C39_svg_elements.
Example ex_C39_svg_elements : exists cs, draw_text ex_fmt 0 0 ex_ts ex_base ex_styles None None None = (cs, Ok tt) /\
  strings_written cs <> [] /\ In (CElement (pys "tspan")) cs.
Proof. eexists. split; [vm_compute; reflexivity|]. split; [discriminate|]. vm_compute. auto 10. Qed.
