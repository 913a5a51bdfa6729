(** The loop of draw_text of the SVG backend. *)
From Coq Require Import List ZArith NArith QArith Bool String Lia.
From Verif Require Import Py PyFacts XmlModel XmlSpec XmlProofs StyleModel StyleSpec StyleProofs
  TextModel TextSpec TextBoxModel DrawModel DrawSpec MeasureSpec DrawProofs.
Import ListNotations.
Local Open Scope nat_scope.

Lemma num_prio : forall s, valid_style s -> num (s_priority s) = Ok (prio s).
Proof.
  intros s V. specialize (V Priority). cbn [allowed get] in V. unfold prio. cbn [get].
  destruct V as [[q ->]|[[] ->]]; reflexivity.
Qed.
Lemma dummyb_starts : forall n, startswith (pys "#") n = dummyb n.
Proof.
  intros [|c n]; auto. unfold startswith, dummyb. change (strip_prefix (pys "#") (c :: n)) with (if N.eqb 35 c then Some n else None).
  rewrite N.eqb_sym. destruct (N.eqb c 35); reflexivity.
Qed.
Lemma Qle_bool_compat : forall a b c, (a == b)%Q -> Qle_bool a c = Qle_bool b c.
Proof.
  intros a b c H. destruct (Qle_bool a c) eqn:E1, (Qle_bool b c) eqn:E2; auto; exfalso.
  - apply Qle_bool_iff in E1. rewrite H in E1. apply Qle_bool_iff in E1. congruence.
  - apply Qle_bool_iff in E2. rewrite <- H in E2. apply Qle_bool_iff in E2. congruence.
Qed.

Lemma forall2_len : forall {A B} {R : A -> B -> Prop} {l l'}, Forall2 R l l' -> List.length l = List.length l'.
Proof. intros A B R l l' H. induction H; cbn; auto. Qed.

Section Loop.
Variable fmt : pyval -> str.
Variables (x : str) (line_size : Q) (styles : str -> option style)
  (ident : option str) (id_index : option nat).
Variable base : style.
Hypothesis vbase : valid_style base.
Hypothesis vstyles : forall n s, styles n = Some s -> valid_style s.
Hypothesis hash : forall n, dummyb n = true -> styles n = None.

(** Everything written can be represented in XML. *)
Definition all_legal : Prop :=
  printable fmt base /\ (forall n s, styles n = Some s -> printable fmt s) /\
  legal_value x = true /\ (forall q, legal_value (fmt (PNum q)) = true) /\
  (forall d, ident = Some d -> legal_value d = true).
Definition legal_texts (ts : list token) : Prop := forall t, In (TText t) ts -> legal t = true.

(** ** Opening an element *)

Definition extra_attrs (al : list (str * str * bool)) : Prop :=
  NoDup (map (fun a => fst (fst a)) al) /\
  (forall n, In n (map (fun a => fst (fst a)) al) -> ~ In n font_names /\ is_name n = true).

Lemma map_fst_fst : forall (al : list (str * str * bool)), map fst (map fst al) = map (fun a => fst (fst a)) al.
Proof. intros. now rewrite map_map. Qed.

Lemma open_block : forall e al (o : option style), is_name e = true -> extra_attrs al ->
  let cs := CElement e :: map set_call al ++ match o with Some s => set_font fmt s | None => [] end in
  (forall st, moves st cs (e :: st)) /\
  (Forall (fun a => legal_value (snd (fst a)) = true) al ->
   match o with Some s => printable fmt s | None => True end -> lawful_calls cs) /\
  (exists l, looks fmt l o /\ forall stack rest, call_glyphs stack (cs ++ rest) = call_glyphs (l :: stack) rest).
Proof.
  intros e al o He [Hd Hn] cs.
  set (fa := match o with Some s => font_attrs fmt s | None => [] end).
  assert (E : cs = CElement e :: map set_call (al ++ fa)).
  { unfold cs, fa. rewrite map_app. destruct o; [now rewrite set_font_attrs|reflexivity]. }
  rewrite E. split; [|split].
  - intros st. apply moves_element.
  - intros Hl Hp. rewrite <- (app_nil_r (map set_call _)). apply lc_element; [exact He| | |constructor].
    + rewrite map_app. unfold fa. destruct o as [s|]; [|rewrite app_nil_r; exact Hd].
      destruct (font_attrs_names fmt s) as [N1 N2].
      clear -Hd Hn N1 N2. induction (map (fun a => fst (fst a)) al) as [|n l IH]; cbn [app]; auto.
      inversion Hd; subst. constructor.
      * intros X. apply in_app_or in X. destruct X as [X|X]; [contradiction|].
        destruct (Hn n (or_introl eq_refl)) as [Y _]. apply Y, N2, X.
      * apply IH; auto. intros. apply Hn. now right.
    + apply Forall_app. split.
      * rewrite Forall_forall in Hl |- *. intros a Ha. split; [|now apply Hl].
        apply (Hn (fst (fst a))). apply in_map_iff. eauto.
      * unfold fa. destruct o as [s|]; [|constructor]. now apply font_attrs_legal.
  - exists (map fst (al ++ fa)). split.
    + rewrite map_app. unfold fa. destruct o as [s|].
      * apply looks_extra. intros n X. rewrite map_fst_fst in X. now apply Hn.
      * cbn [map]. rewrite app_nil_r. apply looks_none. intros n X. rewrite map_fst_fst in X. now apply Hn.
    + intros stack rest. apply call_glyphs_element.
Qed.

(** The attributes of a begin token. *)
Definition begin_attrs (i : nat) : list (str * str * bool) :=
  match ident with
  | Some d => if match id_index with Some k => Nat.eqb k i | None => false end
              then [(pys "id", d, true)] else []
  | None => []
  end ++ [(pys "xml:space", pys "preserve", true)].
Lemma begin_calls : forall i, map set_call (begin_attrs i) =
  match ident with
  | Some d => if match id_index with Some k => Nat.eqb k i | None => false end
              then [CSet (pys "id") d true] else []
  | None => []
  end ++ [preserve].
Proof.
  intros i. unfold begin_attrs. destruct ident; [|reflexivity].
  destruct (match id_index with Some k => Nat.eqb k i | None => false end); reflexivity.
Qed.
Lemma begin_extra : forall i, extra_attrs (begin_attrs i).
Proof.
  intros i. unfold begin_attrs, extra_attrs, font_names.
  destruct ident; [destruct (match id_index with Some k => Nat.eqb k i | None => false end)|];
    cbn [map app fst]; (split; [repeat constructor; cbn [In]; intuition discriminate|
      cbn [In map]; intros n H; intuition; subst; try reflexivity; discriminate]).
Qed.
Lemma begin_legal : forall i, all_legal -> Forall (fun a => legal_value (snd (fst a)) = true) (begin_attrs i).
Proof.
  intros i [_ [_ [_ [_ H]]]]. unfold begin_attrs. destruct ident as [d|];
    [destruct (match id_index with Some k => Nat.eqb k i | None => false end)|];
    repeat constructor; cbn [fst snd]; auto.
Qed.

(** ** A new line *)

Lemma closes_move : forall (active : list (option style)) tail,
  moves (repeat tspan (List.length active) ++ tail) (map (fun _ => CClose (Some tspan)) active) tail.
Proof.
  intros active tail. induction active as [|o active IH]; cbn [List.length repeat app map].
  - apply moves_nil.
  - change (CClose (Some tspan) :: ?l) with ([CClose (Some tspan)] ++ l).
    eapply (moves_app [CClose (Some tspan)]); [apply moves_close|exact IH].
Qed.
Lemma closes_lawful : forall (active : list (option style)),
  lawful_calls (map (fun _ => CClose (Some tspan)) active).
Proof. induction active; constructor; auto. Qed.
Lemma closes_glyphs : forall (active : list (option style)) top stack rest,
  List.length top = List.length active ->
  call_glyphs (top ++ stack) (map (fun _ => CClose (Some tspan)) active ++ rest) = call_glyphs stack rest.
Proof.
  induction active as [|o active IH]; intros [|t top] stack rest H; try discriminate; auto.
  cbn [map app call_glyphs tl]. apply IH. now injection H.
Qed.

Definition line_attrs (dy : str) (j : nat) : list (str * str * bool) :=
  (pys "xml:space", pys "preserve", true) ::
  (if Nat.eqb j 0 then [(pys "x", x, true); (pys "dy", dy, true)] else []).
Lemma line_extra : forall dy j, extra_attrs (line_attrs dy j).
Proof.
  intros dy j. unfold line_attrs, extra_attrs, font_names.
  destruct (Nat.eqb j 0); cbn [map app fst];
   (split; [repeat constructor; cbn [In]; intuition discriminate|
      cbn [In map]; intros n H; intuition; subst; try reflexivity; discriminate]).
Qed.

Lemma repeat_snoc : forall {A} (a : A) n tail, repeat a n ++ a :: tail = a :: repeat a n ++ tail.
Proof. intros A a n tail. induction n; cbn; auto. now rewrite IHn. Qed.

Lemma reopen_facts : forall dy (l : list style) j, legal_value dy = true \/ True ->
  (forall st, moves st (reopen fmt x dy j (map Some l)) (repeat tspan (List.length l) ++ st)) /\
  (all_legal -> legal_value dy = true -> (forall s, In s l -> printable fmt s) ->
   lawful_calls (reopen fmt x dy j (map Some l))) /\
  (exists ls, Forall2 (looks fmt) ls (map Some (rev l)) /\ forall stack rest,
     call_glyphs stack (reopen fmt x dy j (map Some l) ++ rest) = call_glyphs (ls ++ stack) rest).
Proof.
  intros dy l j _. revert j. induction l as [|s l IH]; intros j.
  - cbn. split; [|split]; [intros; apply moves_nil|intros; constructor|]. exists []. split; auto.
  - cbn [map reopen]. destruct (IH (S j)) as [M [L [ls [F G]]]].
    assert (E : [CElement tspan; preserve] ++
       (if Nat.eqb j 0 then [CSet (pys "x") x true; CSet (pys "dy") dy true] else []) ++
       set_font fmt s ++ reopen fmt x dy (S j) (map Some l) =
       (CElement tspan :: map set_call (line_attrs dy j) ++ set_font fmt s) ++
       reopen fmt x dy (S j) (map Some l)).
    { unfold line_attrs. cbn [app]. destruct (Nat.eqb j 0); cbn [map app]; reflexivity. }
    rewrite E. destruct (open_block tspan (line_attrs dy j) (Some s) eq_refl (line_extra dy j)) as [M1 [L1 [l1 [K1 G1]]]].
    cbv zeta in M1, L1, G1. split; [|split].
    + intros st. eapply moves_app; [apply M1|]. cbn [List.length repeat app]. rewrite <- repeat_snoc. apply M.
    + intros HA Hdy Hp. apply lawful_calls_app.
      * apply L1; [|apply Hp; now left]. destruct HA as [_ [_ [Hx _]]]. unfold line_attrs.
        destruct (Nat.eqb j 0); repeat constructor; cbn [fst snd]; auto.
      * apply L; auto. intros. apply Hp. now right.
    + exists (ls ++ [l1]). split.
      * cbn [rev]. rewrite map_app. apply Forall2_app; auto. constructor; auto.
      * intros stack rest. rewrite <- app_assoc, G1, G, <- app_assoc. reflexivity.
Qed.

(** ** The loop *)

Definition rel (g : char * list (list (str * str))) (h : char * list style) : Prop :=
  exists sts, fits fmt base sts (snd g) /\ snd h = effective (sts ++ [Some base]) /\
    (forall s, In (Some s) sts -> exists n, styles n = Some s) /\
    fst g = (if N.eqb (fst h) 32 then 160 else fst h)%N.

Definition current (st : surroundings) (p : Q) : Prop :=
  match effective st with cur :: _ => (p == prio cur)%Q | [] => False end.

Lemma hard_map : forall t, hard_spaces t = map (fun c => if N.eqb c 32 then 160%N else c) t.
Proof. reflexivity. Qed.

Lemma text_rel : forall (sts : surroundings) (around : list (list (str * str))) t,
  fits fmt base sts around -> (forall s, In (Some s) sts -> exists n, styles n = Some s) ->
  Forall2 rel (map (fun c => (c, around)) (hard_spaces t))
    (map (fun c => (c, effective (sts ++ [Some base]))) t).
Proof.
  intros sts around t F H. rewrite hard_map. induction t as [|c t IH]; cbn [map]; constructor; auto.
  exists sts. cbn [fst snd]. auto.
Qed.

(** *** Which characters are inside of an element with the attribute id *)

(** One flag for every character that is written; [stack] tells which of the open elements
    have the id. *)
Fixpoint call_marks (d : str) (stack : list bool) (cs : list xcall) : list bool :=
  match cs with
  | [] => []
  | CText t :: cs' => map (fun _ => existsb (fun b => b) stack) t ++ call_marks d stack cs'
  | CRaw t :: cs' => call_marks d stack cs'
  | CElement _ :: cs' => call_marks d (false :: stack) cs'
  | CSet n v _ :: cs' =>
      match stack with
      | b :: st => call_marks d ((b || is_id d (n, v)) :: st) cs'
      | [] => call_marks d [] cs'
      end
  | CClose _ :: cs' => call_marks d (tl stack) cs'
  end.
Definition marked_stack (o : option nat) (n : nat) : list bool :=
  match o with Some a => repeat false a ++ true :: repeat false (n - S a) | None => repeat false n end.

Lemma marks_sets : forall d al b st rest,
  call_marks d (b :: st) (map set_call al ++ rest) = call_marks d ((b || existsb (is_id d) (map fst al)) :: st) rest.
Proof.
  intros d. induction al as [|[[n v] e] al IH]; intros b st rest; cbn [map app existsb].
  - now rewrite orb_false_r.
  - unfold set_call at 1. cbn [fst snd call_marks]. rewrite IH. cbn [fst]. now rewrite orb_assoc.
Qed.
Lemma marks_font : forall d s b st rest,
  call_marks d (b :: st) (set_font fmt s ++ rest) = call_marks d (b :: st) rest.
Proof.
  intros d s b st rest. rewrite set_font_attrs, marks_sets.
  assert (E : existsb (is_id d) (map fst (font_attrs fmt s)) = false).
  { unfold font_attrs. destruct (is_none (s_font s)), (is_none (s_size s)), (style_string fmt s); reflexivity. }
  now rewrite E, orb_false_r.
Qed.
Lemma marks_block : forall d e al (o : option style) st rest,
  call_marks d st ((CElement e :: map set_call al ++ match o with Some s => set_font fmt s | None => [] end) ++ rest) =
  call_marks d (existsb (is_id d) (map fst al) :: st) rest.
Proof.
  intros d e al o st rest. cbn [app call_marks]. rewrite <- app_assoc, marks_sets. cbn [orb].
  destruct o; [apply marks_font|reflexivity].
Qed.
Lemma marks_closes : forall d (active : list (option style)) top stack rest,
  List.length top = List.length active ->
  call_marks d (top ++ stack) (map (fun _ => CClose (Some tspan)) active ++ rest) = call_marks d stack rest.
Proof.
  intros d. induction active as [|o active IH]; intros [|t top] stack rest H; try discriminate; auto.
  cbn [map app call_marks tl]. apply IH. now injection H.
Qed.
Lemma marks_reopen : forall d dy (l : list style) j stack rest,
  call_marks d stack (reopen fmt x dy j (map Some l) ++ rest) = call_marks d (repeat false (List.length l) ++ stack) rest.
Proof.
  intros d dy. induction l as [|s l IH]; intros j stack rest; [reflexivity|]. cbn [map reopen].
  assert (E : ([CElement tspan; preserve] ++
       (if Nat.eqb j 0 then [CSet (pys "x") x true; CSet (pys "dy") dy true] else []) ++
       set_font fmt s ++ reopen fmt x dy (S j) (map Some l)) ++ rest =
       (CElement tspan :: map set_call (line_attrs dy j) ++ set_font fmt s) ++
       reopen fmt x dy (S j) (map Some l) ++ rest).
  { unfold line_attrs. cbn [app]. destruct (Nat.eqb j 0); cbn [map app]; rewrite <- ?app_assoc; reflexivity. }
  rewrite E. rewrite (marks_block d tspan (line_attrs dy j) (Some s)). rewrite IH. cbn [List.length].
  assert (Z : existsb (is_id d) (map fst (line_attrs dy j)) = false) by (unfold line_attrs; destruct (Nat.eqb j 0); reflexivity).
  rewrite Z. cbn [repeat app]. now rewrite repeat_snoc.
Qed.
Lemma marks_begin : forall d i, ident = Some d ->
  existsb (is_id d) (map fst (begin_attrs i)) = match id_index with Some k => Nat.eqb k i | None => false end.
Proof.
  intros d i E. unfold begin_attrs. rewrite E.
  destruct (match id_index with Some k => Nat.eqb k i | None => false end); [|reflexivity].
  cbn. unfold is_id. cbn [fst snd]. now rewrite !str_eqb_refl.
Qed.
Lemma marked_length : forall o n, match o with Some a => a < n | None => True end -> List.length (marked_stack o n) = n.
Proof.
  intros [a|] n H; unfold marked_stack; [|apply repeat_length].
  rewrite app_length. cbn [List.length]. rewrite !repeat_length. lia.
Qed.
Lemma marked_any : forall o n, existsb (fun b => b) (marked_stack o n) = match o with Some _ => true | None => false end.
Proof.
  assert (Z : forall n, existsb (fun b => b) (repeat false n) = false) by (induction n; auto).
  intros [a|] n; unfold marked_stack; [|apply Z]. rewrite existsb_app, Z. reflexivity.
Qed.

Lemma all_some : forall (st : surroundings), ~ In None st -> exists l, st = map Some l.
Proof.
  induction st as [|[s|] st IH]; intros H.
  - now exists [].
  - destruct IH as [l ->]; [intros X; apply H; now right|]. now exists (s :: l).
  - exfalso. apply H. now left.
Qed.

Lemma loop_facts : forall ts i p sts,
  known_names styles ts -> nest (List.length sts) ts = Some 0 ->
  regular styles (sts ++ [Some base]) ts -> current (sts ++ [Some base]) p ->
  (forall s, In (Some s) sts -> exists n, styles n = Some s) ->
  exists cs, draw_loop fmt x line_size styles ident id_index i p (rev (sts ++ [Some base])) ts =
      (cs, Ok [Some base]) /\
    (forall tail, moves (repeat tspan (S (List.length sts)) ++ tail) cs (tspan :: tail)) /\
    (all_legal -> legal_texts ts -> lawful_calls cs) /\
    (forall around, fits fmt base sts around ->
      exists gs around', fits fmt base [] around' /\
        (forall rest, call_glyphs around (cs ++ rest) = gs ++ call_glyphs around' rest) /\
        Forall2 rel gs (glyphs styles (sts ++ [Some base]) ts)) /\
    (forall d, ident = Some d -> forall o tail rest,
      match o with Some a => a < List.length sts /\ (forall j, id_index = Some j -> j < i) | None => True end ->
      call_marks d (marked_stack o (S (List.length sts)) ++ tail) (cs ++ rest) =
      map (orb (existsb (fun b => b) tail)) (covered id_index i o ts) ++ call_marks d (false :: tail) rest).
Proof.
  induction ts as [|t ts IH]; intros i p sts Hk Hn Hr Hc Hs.
  - cbn in Hn. injection Hn as Hn. destruct sts; [|discriminate]. exists []. cbn [draw_loop].
    split; [reflexivity|]. split; [intros; apply moves_nil|]. split; [intros; constructor|].
    split; [intros around F; exists [], around; cbn; auto|].
    intros d Ed [a|] tail rest Ho; [cbn in Ho; lia|]. reflexivity.
  - assert (Hk' : known_names styles ts) by (intros n X; apply Hk; now right).
    assert (HT : legal_texts (t :: ts) -> legal_texts ts) by (intros Q u X; apply Q; now right).
    destruct t as [s|n|n|]; cbn [nest regular draw_loop glyphs] in *.
    + (* text *)
      destruct (IH (S i) p sts Hk' Hn Hr Hc Hs) as [cs [E [M [L [G K]]]]].
      exists (CText s :: cs). unfold tbind. cbn [snd fst calls]. rewrite E. cbn [fst snd app].
      split; [reflexivity|]. split; [|split; [|split]].
      * intros tail. apply (moves_app [CText s]) with (2 := M tail). apply moves_text.
      * intros A T. constructor; auto. apply T. now left.
      * intros around F. destruct (G around F) as [gs [ar [F' [G' R]]]].
        exists (map (fun c => (c, around)) (hard_spaces s) ++ gs), ar. split; auto. split.
        -- intros rest. cbn [app call_glyphs]. now rewrite G', app_assoc.
        -- apply Forall2_app; auto. apply text_rel; auto.
      * intros d Ed o tail rest Ho. cbn [app call_marks covered].
        rewrite (K d Ed o tail rest) by (destruct o; [destruct Ho as [Q1 Q2]; split; [exact Q1|intros j Hj; specialize (Q2 j Hj); lia]|exact I]).
        rewrite map_app, map_map, <- app_assoc. f_equal. apply map_ext. intros _.
        rewrite existsb_app, marked_any. apply orb_comm.
    + (* newline *)
      destruct Hr as [Hno Hr]. destruct (IH (S i) p sts Hk' Hn Hr Hc Hs) as [cs [E [M [L [G K]]]]].
      set (dy := fmt (PNum (line_size * inject_Z (Z.of_nat n)))).
      destruct (all_some _ Hno) as [l El].
      assert (Er : rev (sts ++ [Some base]) = map Some (rev l)) by (rewrite El; symmetry; apply map_rev).
      destruct (reopen_facts dy (rev l) 0 (or_intror I)) as [M1 [L1 [ls [F1 G1]]]].
      rewrite rev_involutive, <- El in F1.
      assert (Len : List.length (rev (sts ++ [Some base])) = S (List.length sts))
        by (rewrite rev_length, app_length; cbn; lia).
      eexists. unfold tbind. cbn [snd fst calls]. rewrite E. cbn [fst snd].
      split; [reflexivity|]. split; [|split; [|split]].
      * intros tail. apply (moves_app _ _ _ (repeat tspan (S (List.length sts)) ++ tail)); [|apply M].
        rewrite <- Len at 1. apply (moves_app _ _ _ tail); [apply closes_move|].
        rewrite Er. rewrite <- Len, Er, map_length. apply M1.
      * intros A T. apply lawful_calls_app; [|apply L; auto]. apply lawful_calls_app; [apply closes_lawful|].
        rewrite Er. apply L1; auto.
        -- destruct A as [_ [_ [_ [Aq _]]]]. apply Aq.
        -- intros s X. apply in_rev in X. assert (X' : In (Some s) (sts ++ [Some base])).
           { rewrite El. now apply in_map. }
           apply in_app_or in X'. destruct A as [A1 [A2 _]]. destruct X' as [X'|[X'|[]]].
           ++ destruct (Hs s X') as [nm Hnm]. eauto.
           ++ injection X' as <-. exact A1.
      * intros around F. pose proof F as [ls0 [lb [lt [o [-> [F0 [Lb [Ho Lt]]]]]]]].
        assert (F' : fits fmt base sts (ls ++ [lt])).
        { apply Forall2_app_inv_r in F1. destruct F1 as [la [lc [Fa [Fc ->]]]].
          inversion Fc as [|lb' ? ? ? Lb' Fc' ]; subst. inversion Fc'; subst.
          exists la, lb', lt, (Some base). rewrite <- app_assoc. cbn [app]. auto 6. }
        destruct (G _ F') as [gs [ar [Fe [G' R]]]]. exists gs, ar. split; auto. split; auto.
        intros rest. rewrite <- !app_assoc.
        change (ls0 ++ [lb; lt]) with (ls0 ++ [lb] ++ [lt]). rewrite app_assoc.
        rewrite closes_glyphs.
        2:{ rewrite Len, app_length, (forall2_len F0). cbn. lia. }
        rewrite Er, G1. apply G'.
      * intros d Ed o tail rest Ho. rewrite <- !app_assoc, marks_closes.
        2:{ rewrite Len, marked_length; [reflexivity|]. destruct o; [destruct Ho; lia|exact I]. }
        rewrite Er, marks_reopen.
        assert (El' : List.length (rev l) = S (List.length sts)) by (rewrite <- Len, Er, map_length; reflexivity).
        rewrite El'. cbn [covered]. exact (K d Ed None tail rest I).
    + (* begin *)
      set (o := effect styles (sts ++ [Some base]) n) in *.
      assert (Hs' : forall s, In (Some s) (o :: sts) -> exists m, styles m = Some s).
      { intros s [X|X]; auto. unfold o, effect in X. destruct (dummyb n); [discriminate|].
        destruct (styles n) as [s0|] eqn:E; [|discriminate]. exists n.
        destruct (effective (sts ++ [Some base])); [discriminate|].
        destruct (Qle_bool _ _); [congruence|discriminate]. }
      assert (Step : exists p', current ((o :: sts) ++ [Some base]) p' /\
        draw_loop fmt x line_size styles ident id_index i p (rev (sts ++ [Some base])) (TBegin n :: ts) =
        tbind (calls (CElement tspan :: map set_call (begin_attrs i) ++
                      match o with Some s => set_font fmt s | None => [] end))
          (fun _ => draw_loop fmt x line_size styles ident id_index (S i) p'
                      (rev ((o :: sts) ++ [Some base])) ts)).
      { cbn [draw_loop]. rewrite begin_calls. unfold o, effect. rewrite dummyb_starts.
        destruct (dummyb n) eqn:D.
        - rewrite (hash n D). exists p. split; [exact Hc|]. cbn [app rev].
          rewrite app_nil_r. reflexivity.
        - destruct (Hk n (or_introl eq_refl)) as [[r ->]|K]; [discriminate|].
          destruct (styles n) as [s0|] eqn:E; [|contradiction].
          rewrite (num_prio s0) by eauto. unfold current in Hc |- *.
          destruct (effective (sts ++ [Some base])) as [|cur rest] eqn:Ec; [contradiction|].
          unfold lift, tbind at 1. cbn [fst snd]. rewrite (Qle_bool_compat _ _ (prio s0) Hc).
          destruct (Qle_bool (prio cur) (prio s0)) eqn:Eq; cbn [negb].
          + exists (prio s0). split; [cbn; reflexivity|]. cbn [app]. rewrite <- app_assoc.
            cbn [rev app]. destruct (tbind _ _) eqn:Et. reflexivity.
          + exists p. split; [cbn [app effective flat_map]; fold (effective (sts ++ [Some base])); now rewrite Ec|].
            cbn [app]. rewrite <- app_assoc. cbn [rev app]. destruct (tbind _ _) eqn:Et. reflexivity. }
      destruct Step as [p' [Hc' St]]. cbn [draw_loop] in St. rewrite St.
      destruct (IH (S i) p' (o :: sts) Hk' Hn Hr Hc' Hs') as [cs [E [M [L [G K]]]]].
      destruct (open_block tspan (begin_attrs i) o eq_refl (begin_extra i)) as [M1 [L1 [l1 [K1 G1]]]]. cbv zeta in M1, L1, G1.
      eexists. unfold tbind. cbn [snd fst calls]. rewrite E. cbn [fst snd]. split; [reflexivity|].
      split; [|split; [|split]].
      * intros tail. eapply moves_app; [apply M1|]. apply (M tail).
      * intros A T. apply lawful_calls_app; [|apply L; auto]. apply L1; [now apply begin_legal|].
        destruct o as [s|] eqn:Eo; auto. destruct (Hs' s (or_introl eq_refl)) as [m Hm].
        destruct A as [_ [A2 _]]. eauto.
      * intros around F. assert (F' : fits fmt base (o :: sts) (l1 :: around)).
        { destruct F as [ls0 [lb [lt [o' [-> [F0 [Lb [Ho Lt]]]]]]]].
          exists (l1 :: ls0), lb, lt, o'. cbn [app]. auto 6. }
        destruct (G _ F') as [gs [ar [Fe [G' R]]]]. exists gs, ar. split; auto. split; auto.
        intros rest. rewrite <- app_assoc, G1. apply G'.
      * intros d Ed q tail rest Ho. rewrite <- app_assoc. rewrite marks_block, (marks_begin d i Ed). cbn [covered].
        destruct q as [a|].
        -- destruct Ho as [H1 H2].
           assert (Z : match id_index with Some k => Nat.eqb k i | None => false end = false).
           { destruct id_index as [j|]; [|reflexivity]. apply Nat.eqb_neq. specialize (H2 j eq_refl). lia. }
           rewrite Z. rewrite <- (K d Ed (Some (S a)) tail rest); [reflexivity|]. cbn [List.length].
           split; [lia|]. intros j Hj. specialize (H2 j Hj). lia.
        -- destruct id_index as [j|] eqn:Ei; [destruct (Nat.eqb_spec j i) as [->|Nj]|].
           ++ rewrite <- (K d Ed (Some 0) tail rest); [reflexivity|]. cbn [List.length]. split; [lia|].
              intros j Hj. injection Hj as <-. lia.
           ++ exact (K d Ed None tail rest I).
           ++ exact (K d Ed None tail rest I).
    + (* end *)
      destruct sts as [|o sts]; [discriminate|]. cbn [List.length app tl] in *. destruct Hr as [Hr1 Hr2].
      assert (Hs' : forall s, In (Some s) sts -> exists m, styles m = Some s) by (intros; apply Hs; now right).
      assert (Step : exists p', current (sts ++ [Some base]) p' /\
        match rev (rev (o :: sts ++ [Some base])) with
        | [] => traise EIndex
        | _ :: below =>
            match below with
            | Some s :: _ =>
                tbind (lift (num (s_priority s))) (fun p => draw_loop fmt x line_size styles ident id_index (S i) p (rev below) ts)
            | _ => draw_loop fmt x line_size styles ident id_index (S i) p (rev below) ts
            end
        end = draw_loop fmt x line_size styles ident id_index (S i) p' (rev (sts ++ [Some base])) ts).
      { rewrite rev_involutive.
        destruct (sts ++ [Some base]) as [|[s|] below] eqn:Eb.
        - destruct sts; discriminate.
        - assert (V : valid_style s).
          { assert (X : In (Some s) (sts ++ [Some base])) by (rewrite Eb; now left).
            apply in_app_or in X. destruct X as [X|[X|[]]].
            - destruct (Hs' s X). eauto.
            - injection X as <-. exact vbase. }
          exists (prio s). split; [cbn; reflexivity|]. rewrite (num_prio s V).
          unfold tbind, lift. cbn [fst snd]. destruct (draw_loop _ _ _ _ _ _ _ _ _ _). reflexivity.
        - exists p. split; auto. unfold current in *. cbn [effective flat_map app] in Hc |- *.
          fold (effective below) in Hc |- *. destruct o as [s|]; cbn [app] in Hc; auto.
          cbn in Hr1. fold (effective below) in Hr1. destruct (effective below); [contradiction|].
          rewrite Hc. exact Hr1. }
      destruct Step as [p' [Hc' St]].
      destruct (IH (S i) p' sts Hk' Hn Hr2 Hc' Hs') as [cs [E [M [L [G K]]]]].
      exists (CClose (Some tspan) :: cs). unfold tbind at 1. cbn [snd fst calls]. cbn [app] in St. rewrite St, E. cbn [fst snd app].
      split; [reflexivity|]. split; [|split; [|split]].
      * intros tail. apply (moves_app [CClose (Some tspan)]) with (2 := M tail). apply moves_close.
      * intros A T. constructor; auto.
      * intros around F. assert (F' : fits fmt base sts (tl around)).
        { destruct F as [ls0 [lb [lt [o' [-> [F0 [Lb [Ho Lt]]]]]]]].
          inversion F0; subst. cbn [app tl]. do 4 eexists. split; [reflexivity|]. eauto. }
        destruct (G _ F') as [gs [ar [Fe [G' R]]]]. exists gs, ar. split; auto.
      * intros d Ed q tail rest Ho. cbn [app call_marks covered]. destruct q as [[|a]|].
        -- cbn [marked_stack repeat app tl].
           replace (S (S (List.length sts)) - 1) with (S (List.length sts)) by lia. exact (K d Ed None tail rest I).
        -- cbn [marked_stack repeat app tl]. destruct Ho as [H1 H2].
           rewrite <- (K d Ed (Some a) tail rest); [reflexivity|]. split; [lia|]. intros j Hj. specialize (H2 j Hj). lia.
        -- exact (K d Ed None tail rest I).
Qed.
End Loop.
