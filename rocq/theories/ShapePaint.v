(** Proofs about the drawing of shapes: painting with Cairo, attributes of SVG. *)
From Coq Require Import List Reals NArith Bool String Lra Lia.
From Verif Require Import Py PyFacts XmlModel ShapeModel ShapeSpec ShapeProofs ImageIds.
Import ListNotations.
Local Open Scope R_scope.

(** ** Painting with Cairo *)

(** A text that is not empty. *)
Definition given (v : option str) : option str :=
  match v with Some (c :: s) => Some (c :: s) | _ => None end.
Definition look_of (p : paint) : look :=
  mkLook (given (p_bg p))
         (match given (p_color p) with
          | Some c => Some (c, width_or_1 (p_width p), given (p_dash p))
          | None => None
          end).

Lemma words_pieces : forall s acc, (forall c, In c s -> is_space c = dash_sep c) ->
  words_acc acc s = pieces dash_sep (rev acc) s.
Proof.
  induction s as [|c s IH]; intros acc H; simpl.
  - destruct acc as [|x acc]; [reflexivity|].
    simpl. destruct (rev acc ++ [x]) eqn:E; [now destruct (rev acc)|].
    rewrite <- E, rev_app_distr, rev_involutive. reflexivity.
  - rewrite <- (H c (or_introl eq_refl)).
    assert (H' : forall c, In c s -> is_space c = dash_sep c) by (intros; apply H; now right).
    destruct (is_space c).
    + destruct acc as [|x acc]; simpl; [now apply (IH [])|].
      destruct (rev acc ++ [x]) eqn:E; [now destruct (rev acc)|].
      rewrite <- E, rev_app_distr, rev_involutive. simpl. f_equal. now apply (IH []).
    + rewrite (IH _ H'), rev_app_distr. reflexivity.
Qed.
Lemma in_words : forall s acc c, In c (acc ++ s) -> is_space c = false ->
  exists w, In w (words_acc acc s) /\ In c w.
Proof.
  induction s as [|x s IH]; intros acc c H S; simpl.
  - rewrite app_nil_r in H. destruct acc as [|y acc]; [easy|]. exists (y :: acc). split; [now left|exact H].
  - apply in_app_or in H. destruct (is_space x) eqn:E.
    + destruct H as [H|[->|H]]; [|congruence|].
      * destruct acc as [|y acc]; [easy|]. exists (y :: acc). split; [now left|exact H].
      * destruct (IH [] c H S) as (w & W1 & W2). exists w. split; [|exact W2].
        destruct acc; [exact W1|now right].
    + apply IH; [|exact S]. rewrite <- app_assoc. apply in_or_app. simpl. tauto.
Qed.

Section Marks.
Variable rgb_of : str -> result rgb.
Variable to_float : str -> result R.
Variable same : list seg -> list seg -> Prop.
Variables (base m : mat) (o : list seg) (cb : run) (pre : list seg -> option pt -> Prop).
Hypothesis Hpen : same_pen base m.
Hypothesis Hcb : forall s s', ctm s = m -> pre (c_path s) (c_cur s) -> cb s = Ok s' ->
  keeps s s' /\ same (c_path s') o.
(** [float()] accepts no comma and no semicolon. *)
Definition float_chars : Prop := forall v x, to_float v = Ok x -> ~ In 44%N v /\ ~ In 59%N v.
Hypothesis Hchars : float_chars.

(** Only the white space that SVG knows. *)
Definition plain_dash (d : option str) : Prop :=
  forall s c, d = Some s -> In c s -> is_space c = true -> dash_sep c = true.

Lemma floats_spec : forall l xs, floats to_float l = Ok xs ->
  Forall2 (fun v x => to_float v = Ok x) l xs.
Proof.
  induction l as [|v l IH]; intros xs H; simpl in H; [injection H as <-; constructor|].
  apply bind_ok in H as (x & H1 & H). apply bind_ok in H as (ys & H2 & H).
  injection H as <-. constructor; auto.
Qed.

Lemma dash_spec : forall s xs, plain_dash (Some s) -> floats to_float (words s) = Ok xs ->
  Forall2 (fun v x => to_float v = Ok x) (pieces dash_sep [] s) xs.
Proof.
  intros s xs P H. apply floats_spec in H.
  unfold words in H. rewrite words_pieces in H; [exact H|].
  intros c Hc. destruct (is_space c) eqn:E; [now rewrite (P s c eq_refl Hc E)|].
  destruct (dash_sep c) eqn:F; [|reflexivity].
  exfalso. unfold dash_sep in F. rewrite !orb_true_iff, !N.eqb_eq in F.
  assert (c = 44%N) as ->.
  { destruct F as [[[[[F|F]|F]|F]|F]|F]; [exact F| | | | |]; subst c; discriminate E. }
  destruct (in_words s [] 44%N Hc E) as (w & W1 & W2).
  assert (X : exists x, to_float w = Ok x).
  { clear - H W1. induction H; [easy|]. destruct W1 as [->|W1]; eauto. }
  destruct X as (x & X). exact (proj1 (Hchars _ _ X) W2).
Qed.

Lemma stroke_marks : forall c w d s s',
  ctm s = m -> pre (c_path s) (c_cur s) -> g_dash (c_g s) = [] -> plain_dash d ->
  stroke_shape rgb_of to_float cb c w d s = Ok s' ->
  exists b, c_ink s' = c_ink s ++ b /\ c_path s' = [] /\ c_cur s' = None /\ c_saved s' = c_saved s /\
    ctm s' = m /\
    strokes rgb_of to_float same base o (Some (c, width_or_1 w, given d)) b.
Proof.
  intros c w d s s' C R D PD H. unfold stroke_shape in H.
  apply bind_ok in H as (col & H1 & H). cbv zeta in H.
  apply bind_ok in H as (s1 & H2 & H). apply bind_ok in H as (s2 & H3 & H). injection H as <-.
  assert (S1 : exists ds, s1 = k_dash (k_width (k_source s col) (width_or_1 w)) ds /\
     match given d with
     | None => ds = []
     | Some s => Forall2 (fun v x => to_float v = Ok x) (pieces dash_sep [] s) ds
     end).
  { destruct d as [[|x d]|]; cbn [truthy_str given] in *.
    - injection H2 as <-. exists []. split; [|reflexivity]. destruct s as [[] ? ? ? ? ? ?].
      simpl in D. now subst.
    - apply bind_ok in H2 as (f & F & H2). injection H2 as <-. exists f. split; [reflexivity|].
      now apply dash_spec.
    - injection H2 as <-. exists []. split; [|reflexivity]. destruct s as [[] ? ? ? ? ? ?].
      simpl in D. now subst. }
  destruct S1 as (ds & -> & Hds).
  destruct (Hcb (k_dash (k_width (k_source s col) (width_or_1 w)) ds) s2 C R H3) as ((K1 & K2 & K3) & S2).
  exists [MStroke (c_path s2) col (width_or_1 w) ds m].
  assert (M2 : ctm s2 = m) by (unfold ctm; rewrite K1; exact C).
  unfold k_stroke. cbn [k_new_path c_ink c_path c_cur c_saved]. rewrite M2, K1, K2, K3.
  refine (conj eq_refl (conj eq_refl (conj eq_refl (conj eq_refl (conj C _))))).
  econstructor; eauto.
Qed.

Lemma fill_marks : forall c s s',
  ctm s = m -> pre (c_path s) (c_cur s) ->
  fill_shape rgb_of cb c s = Ok s' ->
  exists a, c_ink s' = c_ink s ++ a /\ c_path s' = [] /\ c_cur s' = None /\ c_saved s' = c_saved s /\
    ctm s' = m /\ g_dash (c_g s') = g_dash (c_g s) /\
    fills rgb_of same o (Some c) a.
Proof.
  intros c s s' C R H. unfold fill_shape in H.
  apply bind_ok in H as (col & H1 & H). apply bind_ok in H as (s1 & H2 & H). injection H as <-.
  destruct (Hcb (k_source s col) s1 C R H2) as ((K1 & K2 & K3) & S2).
  exists [MFill (c_path s1) col].
  assert (M2 : ctm s1 = m) by (unfold ctm; rewrite K1; exact C).
  unfold k_fill. cbn [k_new_path c_ink c_path c_cur c_saved c_g]. rewrite K1, K2, K3.
  refine (conj eq_refl (conj eq_refl (conj eq_refl (conj eq_refl (conj C (conj eq_refl _)))))).
  econstructor; eauto.
Qed.

Lemma fill_stroke_marks : forall p s s', pre [] None -> c_path s = [] ->
  ctm s = m -> pre (c_path s) (c_cur s) -> g_dash (c_g s) = [] -> plain_dash (p_dash p) ->
  fill_stroke_shape rgb_of to_float cb p s = Ok s' ->
  exists a b, c_ink s' = c_ink s ++ a ++ b /\ c_path s' = [] /\
    (c_cur s = None -> c_cur s' = None) /\ c_saved s' = c_saved s /\
    fills rgb_of same o (l_fill (look_of p)) a /\
    strokes rgb_of to_float same base o (l_stroke (look_of p)) b.
Proof.
  intros p s s' Hpre P C R D PD H. unfold fill_stroke_shape in H.
  apply bind_ok in H as (s1 & H1 & H).
  assert (F : exists a, c_ink s1 = c_ink s ++ a /\ c_path s1 = [] /\
    (c_cur s = None -> c_cur s1 = None) /\ pre (c_path s1) (c_cur s1) /\ c_saved s1 = c_saved s /\ ctm s1 = m /\
    g_dash (c_g s1) = [] /\ fills rgb_of same o (l_fill (look_of p)) a).
  { unfold look_of. cbn [l_fill]. destruct (p_bg p) as [[|x b]|]; cbn [truthy_str given] in *.
    - injection H1 as <-. exists []. rewrite app_nil_r. repeat split; try assumption; [auto|constructor].
    - destruct (fill_marks _ _ _ C R H1) as (a & F1 & F2 & F3 & F4 & F5 & F6 & F7).
      exists a. rewrite F2, F3, F6. repeat split; auto.
    - injection H1 as <-. exists []. rewrite app_nil_r. repeat split; try assumption; [auto|constructor]. }
  destruct F as (a & F1 & F2 & F3 & F4 & F5 & F6 & F7 & F8).
  unfold look_of. cbn [l_stroke]. destruct (p_color p) as [[|x c]|]; cbn [truthy_str given] in *.
  - injection H as <-. exists a, []. rewrite app_nil_r. repeat split; auto. constructor.
  - destruct (stroke_marks _ _ _ _ _ F6 F4 F7 PD H) as (b & S1 & S2 & S3 & S4 & S5 & S6).
    exists a, b. rewrite S1, F1, app_assoc. repeat split; auto. congruence.
  - injection H as <-. exists a, []. rewrite app_nil_r. repeat split; auto. constructor.
Qed.
End Marks.

(** ** [transform] *)
Definition rotation_of (rotation : option R) (c : pt) : mat :=
  match rotation with Some a => rotation_about a c | None => ident end.
Lemma transform_spec : forall c rot s,
  transform c rot 1 1 s = Ok (with_ctm s (mul (ctm s) (rotation_of rot c))).
Proof.
  intros. unfold transform. rewrite !req_refl. cbn [negb orb rbind]. f_equal.
  destruct rot as [a|]; unfold k_translate, k_rotate, with_ctm, with_g, ctm; simpl; f_equal; f_equal.
  - rewrite transform_rotation. reflexivity.
  - rewrite transform_none. cbn [rotation_of]. now rewrite mul_ident.
Qed.
Lemma same_pen_rotation : forall m rot c, same_pen m (mul m (rotation_of rot c)).
Proof.
  intros m [a|] c.
  - exists (a * PI / 180). simpl. auto.
  - exists 0. unfold rotation_of, mrotate. rewrite mul_ident, cos_0, sin_0. simpl. repeat split; ring.
Qed.
Lemma same_pen_refl : forall m, same_pen m m.
Proof. intros m. exists 0. unfold mrotate. rewrite cos_0, sin_0. simpl. repeat split; ring. Qed.

(** A scope restores the graphics state. *)
Lemma ctx_scope_inv : forall body s s', ctx_scope body s = Ok s' ->
  exists s1, body (k_save s) = Ok s1 /\
    (c_saved s1 = c_g s :: c_saved s ->
     s' = mkCtx (c_g s) (c_saved s) (c_path s1) (c_cur s1) (c_start s1) (c_fresh s1) (c_ink s1)).
Proof.
  intros body s s' H. apply bind_ok in H as (s1 & H1 & H). exists s1. split; [exact H1|].
  intros E. unfold k_restore in H. rewrite E in H. now injection H as <-.
Qed.

(** ** The attributes of SVG *)

Lemma str_eqb_refl : forall s, str_eqb s s = true.
Proof. intros. now apply str_eqb_eq. Qed.

Lemma pieces_app : forall sep w acc s, (forall c, In c w -> sep c = false) ->
  pieces sep acc (w ++ s) = pieces sep (rev w ++ acc) s.
Proof.
  induction w as [|c w IH]; intros acc s H; [reflexivity|].
  simpl. rewrite (H c (or_introl eq_refl)). rewrite IH by (intros; apply H; now right).
  now rewrite <- app_assoc.
Qed.
Lemma pieces_sep : forall sep acc c s, sep c = true -> acc <> [] ->
  pieces sep acc (c :: s) = rev acc :: pieces sep [] s.
Proof. intros sep acc c s H A. simpl. rewrite H. now destruct acc. Qed.
Lemma pieces_word : forall sep w c s, (forall c, In c w -> sep c = false) -> w <> [] -> sep c = true ->
  pieces sep [] (w ++ c :: s) = w :: pieces sep [] s.
Proof.
  intros sep w c s H W C. rewrite pieces_app by exact H. rewrite app_nil_r, pieces_sep; auto.
  - now rewrite rev_involutive.
  - intros E. apply W. rewrite <- (rev_involutive w), E. reflexivity.
Qed.
Lemma pieces_end : forall sep w, (forall c, In c w -> sep c = false) -> w <> [] ->
  pieces sep [] w = [w].
Proof.
  intros sep w H W. rewrite <- (app_nil_r w) at 1. rewrite pieces_app by exact H.
  rewrite app_nil_r. simpl. destruct (rev w) eqn:E.
  - elim W. rewrite <- (rev_involutive w), E. reflexivity.
  - rewrite <- E, rev_involutive. reflexivity.
Qed.
Lemma pieces_join : forall sep c l, sep c = true ->
  Forall (fun w => (forall c, In c w -> sep c = false) /\ w <> []) l ->
  pieces sep [] (join_with [c] l) = l.
Proof.
  intros sep c l C. induction l as [|w l IH]; intros H; [reflexivity|].
  apply Forall_cons_iff in H as [[H1 H2] H3]. destruct l as [|w' l].
  - simpl. now apply pieces_end.
  - change (join_with [c] (w :: w' :: l)) with (w ++ c :: join_with [c] (w' :: l)).
    rewrite pieces_word by assumption. f_equal. now apply IH.
Qed.

Section Read.
Variable fmt : R -> str.
Variable num_of : str -> option R.
Variable isfloat : R -> Prop.

(** A character of a written number. *)
Definition numeral_char (c : char) : Prop :=
  c <> 44%N /\ c <> 32%N /\ c <> 41%N /\ c <> 59%N /\ command_letter c = None.
(** Written numbers are read back. *)
Definition good_numbers : Prop := forall x, isfloat x ->
  num_of (fmt x) = Some x /\ fmt x <> [] /\ Forall numeral_char (fmt x).
Hypothesis Hfmt : good_numbers.

Definition float_pt (p : pt) : Prop := isfloat (fst p) /\ isfloat (snd p).

Lemma fmt_no_sep : forall x, isfloat x -> forall c, In c (fmt x) -> comma_space c = false.
Proof.
  intros x H c Hc. destruct (Hfmt x H) as (_ & _ & F). rewrite Forall_forall in F.
  destruct (F c Hc) as (A & B & _). unfold comma_space. apply N.eqb_neq in A, B. now rewrite A, B.
Qed.

Fixpoint numbers (ps : list pt) : list R :=
  match ps with [] => [] | p :: ps' => fst p :: snd p :: numbers ps' end.
Lemma pairs_numbers : forall ps, pairs (numbers ps) = Some ps.
Proof. induction ps as [|[x y] ps IH]; [reflexivity|]. simpl. now rewrite IH. Qed.
Lemma all_numbers_fmt : forall l, Forall isfloat l -> all_numbers num_of (map fmt l) = Some l.
Proof.
  induction 1 as [|x l H F IH]; [reflexivity|]. simpl. rewrite IH. now rewrite (proj1 (Hfmt x H)).
Qed.
Lemma numbers_float : forall ps, Forall float_pt ps -> Forall isfloat (numbers ps).
Proof. induction 1 as [|p ps [H1 H2] F IH]; simpl; auto. Qed.

Lemma pieces_points : forall ps tail, Forall float_pt ps -> tail = [] \/ tail = [32%N] ->
  pieces comma_space [] (points_str fmt ps ++ tail) = map fmt (numbers ps).
Proof.
  intros ps tail F T. unfold points_str. induction F as [|p ps [H1 H2] F IH].
  - destruct T; subst; reflexivity.
  - destruct (Hfmt _ H1) as (_ & N1 & _). destruct (Hfmt _ H2) as (_ & N2 & _).
    cbn [map numbers]. destruct ps as [|p' ps].
    + cbn [join_with map numbers]. unfold pair_str. change (pys ",") with [44%N].
      rewrite <- !app_assoc. cbn [app].
      rewrite pieces_word; [|now apply fmt_no_sep|exact N1|reflexivity]. f_equal.
      destruct T; subst tail.
      * rewrite app_nil_r. apply pieces_end; [now apply fmt_no_sep|exact N2].
      * rewrite pieces_word; [reflexivity|now apply fmt_no_sep|exact N2|reflexivity].
    + cbn [map] in *. change (pys " ") with [32%N] in *.
      change (join_with [32%N] (pair_str fmt p :: pair_str fmt p' :: map (pair_str fmt) ps))
        with (pair_str fmt p ++ 32%N :: join_with [32%N] (pair_str fmt p' :: map (pair_str fmt) ps)).
      unfold pair_str at 1. change (pys ",") with [44%N].
      rewrite <- !app_assoc. cbn [app].
      rewrite pieces_word; [|now apply fmt_no_sep|exact N1|reflexivity]. f_equal.
      rewrite pieces_word; [|now apply fmt_no_sep|exact N2|reflexivity]. f_equal.
      exact IH.
Qed.
Lemma read_points_written : forall ps tail, Forall float_pt ps -> tail = [] \/ tail = [32%N] ->
  read_points num_of (points_str fmt ps ++ tail) = Some ps.
Proof.
  intros ps tail F T. unfold read_points. rewrite pieces_points by assumption.
  rewrite all_numbers_fmt by now apply numbers_float. apply pairs_numbers.
Qed.

(** *** Path data *)
Lemma read_commands_app : forall w cur acc s, (forall c, In c w -> command_letter c = None) ->
  read_commands num_of cur acc (w ++ s) = read_commands num_of cur (rev w ++ acc) s.
Proof.
  induction w as [|c w IH]; intros cur acc s H; [reflexivity|].
  simpl. rewrite (H c (or_introl eq_refl)). rewrite IH by (intros; apply H; now right).
  now rewrite <- app_assoc.
Qed.
Lemma letter_char : forall n, exists c, letter n = [c] /\ command_letter c = Some n.
Proof. intros []; eexists; split; reflexivity. Qed.
Lemma points_no_letter : forall ps, Forall float_pt ps ->
  forall c, In c (points_str fmt ps) -> command_letter c = None.
Proof.
  intros ps F. unfold points_str. induction F as [|p ps [H1 H2] F IH]; intros c H; [easy|].
  assert (P : In c (pair_str fmt p) -> command_letter c = None).
  { unfold pair_str. intros K. apply in_app_or in K as [K|K].
    - destruct (Hfmt _ H1) as (_ & _ & N). rewrite Forall_forall in N. now apply (N c K).
    - apply in_app_or in K as [[<-|[]]|K]; [reflexivity|].
      destruct (Hfmt _ H2) as (_ & _ & N). rewrite Forall_forall in N. now apply (N c K). }
  cbn [map] in H. destruct ps as [|p' ps]; [now apply P|].
  cbn [map] in *. change (join_with (pys " ") (?a :: ?b :: ?l)) with (a ++ pys " " ++ join_with (pys " ") (b :: l)) in H.
  apply in_app_or in H as [H|H]; [now apply P|].
  apply in_app_or in H as [[<-|[]]|H]; [reflexivity|]. now apply IH.
Qed.
Lemma read_path_written : forall cs, Forall (fun c => Forall float_pt (snd c)) cs ->
  read_path num_of (path_str fmt cs) = Some cs.
Proof.
  intros cs F. unfold read_path, path_str.
  (* after a letter: the rest of the command and the following ones *)
  assert (G : forall cs, Forall (fun c : cmd => Forall float_pt (snd c)) cs -> forall n ps,
    Forall float_pt ps ->
    read_commands num_of (Some n) [] (points_str fmt ps ++
      match cs with [] => [] | _ => 32%N :: join_with (pys " ") (map (command_to_str fmt) cs) end)
    = Some ((n, ps) :: cs)).
  { clear cs F. induction 1 as [|[n' ps'] cs F1 F IH]; intros n ps Fp.
    - rewrite read_commands_app by now apply points_no_letter.
      cbn [read_commands]. rewrite app_nil_r, rev_involutive.
      rewrite <- (app_nil_r (points_str fmt ps)). rewrite read_points_written by auto. reflexivity.
    - rewrite read_commands_app by now apply points_no_letter.
      rewrite app_nil_r.
      assert (E : join_with (pys " ") (map (command_to_str fmt) (@cons cmd (n', ps') cs)) =
        letter n' ++ points_str fmt ps' ++
          match cs with [] => [] | _ => 32%N :: join_with (pys " ") (map (command_to_str fmt) cs) end).
      { cbn [map]. destruct cs; [cbn [map join_with]; unfold command_to_str; cbn [fst snd]; now rewrite app_nil_r|].
        cbn [map]. change (join_with (pys " ") (?a :: ?b :: ?l)) with (a ++ pys " " ++ join_with (pys " ") (b :: l)).
        unfold command_to_str at 1. cbn [fst snd]. now rewrite <- app_assoc. }
      rewrite E. destruct (letter_char n') as (c & -> & C).
      cbn [app read_commands]. change (command_letter 32%N) with (@None pname). cbv iota.
      rewrite C. cbn [rev]. rewrite rev_involutive.
      rewrite read_points_written by auto. now rewrite IH by assumption. }
  destruct F as [|[n ps] cs F1 F]; [reflexivity|].
  cbn [snd] in F1. specialize (G cs F n ps F1).
  destruct (letter_char n) as (c & L & C).
  assert (E : join_with (pys " ") (map (command_to_str fmt) (@cons cmd (n, ps) cs)) =
    c :: points_str fmt ps ++
      match cs with [] => [] | _ => 32%N :: join_with (pys " ") (map (command_to_str fmt) cs) end).
  { cbn [map]. unfold command_to_str at 1. cbn [fst snd]. rewrite L. destruct cs.
    - cbn [map join_with app]. now rewrite app_nil_r.
    - cbn [map]. change (join_with (pys " ") (?a :: ?b :: ?l)) with (a ++ pys " " ++ join_with (pys " ") (b :: l)).
      cbn [app]. reflexivity. }
  change (read_commands num_of None [] (join_with (pys " ") (map (command_to_str fmt) (@cons cmd (n, ps) cs))) = Some ((n, ps) :: cs)).
  rewrite E. cbn [read_commands]. rewrite C. exact G.
Qed.

(** *** Rotation *)
Lemma read_rotation_written : forall a c, isfloat a -> float_pt c ->
  read_rotation num_of (pys "rotate(" ++ fmt a ++ pys " " ++ fmt (fst c) ++ pys " " ++
              fmt (snd c) ++ pys ")") = Some (a, c).
Proof.
  intros a c Ha [H1 H2]. unfold read_rotation.
  assert (SP : forall p s, strip_prefix p (p ++ s) = Some s).
  { induction p as [|x p IH]; intros s; [reflexivity|]. cbn [app strip_prefix]. now rewrite N.eqb_refl. }
  rewrite SP. change (pys ")") with [41%N]. change (pys " ") with [32%N].
  rewrite !app_assoc, rev_app_distr. cbn [rev app]. change (N.eqb 41 41) with true. cbv iota.
  rewrite rev_involutive. rewrite <- !app_assoc. cbn [app].
  destruct (Hfmt _ Ha) as (Na & Ea & _). destruct (Hfmt _ H1) as (N1 & E1 & _).
  destruct (Hfmt _ H2) as (N2 & E2 & _).
  rewrite pieces_word; [|now apply fmt_no_sep|exact Ea|reflexivity].
  rewrite pieces_word; [|now apply fmt_no_sep|exact E1|reflexivity].
  rewrite pieces_end; [|now apply fmt_no_sep|exact E2].
  cbn [all_numbers]. rewrite Na, N1, N2. now rewrite pt_eta.
Qed.

(** *** Paint *)
Variable rgb_of : str -> result rgb.
(** Colours that webcolors accepts do not contain a semicolon and are not "none". *)
Definition css_colors : Prop := forall c x, rgb_of c = Ok x -> ~ In 59%N c /\ c <> pys "none".
Hypothesis Hcol : css_colors.

Lemma visible_paint_given : forall c, c <> pys "none" -> visible_paint (Some c) = Some c.
Proof.
  intros c H. unfold visible_paint. destruct (str_eqb c (pys "none")) eqn:E; [|reflexivity].
  apply str_eqb_eq in E. contradiction.
Qed.

Definition ok_color (v : option str) : Prop :=
  forall c, given v = Some c -> ~ In 59%N c /\ c <> pys "none".
Definition no_semicolon (v : option str) : Prop := forall s, given v = Some s -> ~ In 59%N s.

Lemma read_style_written : forall p, ok_color (p_bg p) -> ok_color (p_color p) ->
  no_semicolon (p_dash p) -> isfloat (width_or_1 (p_width p)) ->
  read_style num_of (paint_style fmt p) = Some (look_of p).
Proof.
  intros p B C D W. unfold read_style, declarations, paint_style.
  destruct (Hfmt _ W) as (NW & _ & FW).
  assert (FWs : ~ In 59%N (fmt (width_or_1 (p_width p)))).
  { intros K. rewrite Forall_forall in FW. now apply (FW _ K). }
  set (l := _ ++ _).
  assert (L : pieces (N.eqb 59) [] (join_with (pys ";") l) = l).
  { apply (pieces_join (N.eqb 59) 59%N); [reflexivity|].
    assert (X : forall a s, ~ In 59%N (pys a) -> pys a <> [] -> ~ In 59%N s ->
      (forall c, In c (pys a ++ s) -> N.eqb 59 c = false) /\ pys a ++ s <> []).
    { intros a s A1 A2 S. split.
      - intros c Hc. apply N.eqb_neq. intros <-. apply in_app_or in Hc. tauto.
      - intros E. apply app_eq_nil in E. now destruct E. }
    assert (Y : forall a, ~ In 59%N (pys a) -> pys a <> [] ->
      (forall c, In c (pys a) -> N.eqb 59 c = false) /\ pys a <> []).
    { intros a A1 A2. split; [|exact A2]. intros c Hc. apply N.eqb_neq. now intros <-. }
    assert (NI : forall a, existsb (N.eqb 59) (pys a) = false -> ~ In 59%N (pys a)).
    { intros a E K. assert (existsb (N.eqb 59) (pys a) = true); [|congruence].
      apply existsb_exists. exists 59%N. split; [exact K|reflexivity]. }
    unfold l. apply Forall_app. split.
    - unfold ok_color in B.
      destruct (p_bg p) as [[|x b]|]; cbn [truthy_str given] in *;
        (constructor; [|constructor]).
      + apply Y; [now apply NI|discriminate].
      + apply X; [now apply NI|discriminate|]. now apply (B (x :: b)).
      + apply Y; [now apply NI|discriminate].
    - unfold ok_color in C.
      destruct (p_color p) as [[|x b]|]; cbn [truthy_str given] in *.
      + constructor; [|constructor]. apply Y; [now apply NI|discriminate].
      + constructor; [apply X; [now apply NI|discriminate|now apply (C (x :: b))]|].
        constructor; [apply X; [now apply NI|discriminate|exact FWs]|].
        unfold no_semicolon in D. destruct (p_dash p) as [[|y d]|]; cbn [truthy_str given] in *; constructor.
        * apply X; [now apply NI|discriminate|now apply (D (y :: d))].
        * constructor.
      + constructor; [|constructor]. apply Y; [now apply NI|discriminate]. }
  rewrite L. subst l. clear L.
  unfold ok_color in B, C. unfold look_of.
  assert (SF : forall k s, existsb (N.eqb 58) (pys k) = false -> pys (k ++ ":") = pys k ++ pys ":" ->
     split_first (pys ":") (pys (k ++ ":") ++ s) = Some (pys k, s)).
  { intros k s E ->. rewrite <- app_assoc. cbn [app]. change (pys ":") with [58%N].
    induction (pys k) as [|c w IH]; [reflexivity|].
    cbn [app split_first strip_prefix]. cbn [existsb] in E. apply orb_false_iff in E as [E1 E2].
    rewrite E1. cbn [app] in IH. rewrite (IH E2). reflexivity. }
  rewrite map_app.
  destruct (p_bg p) as [[|x b]|]; cbn [truthy_str given map] in *;
  (destruct (p_color p) as [[|y c]|]; cbn [truthy_str given map app] in *;
   [| destruct (p_dash p) as [[|z d]|]; cbn [truthy_str given map app] in * |]);
  rewrite ?(SF "fill"%string), ?(SF "stroke"%string), ?(SF "stroke-width"%string),
    ?(SF "stroke-dasharray"%string) by reflexivity;
  try change (split_first (pys ":") (pys "fill:none")) with (Some (pys "fill", pys "none"));
  try change (split_first (pys ":") (pys "stroke:none")) with (Some (pys "stroke", pys "none"));
  cbv iota;
  repeat match goal with
  | |- context [declared ?k ((?a, ?v) :: ?r)] =>
      change (declared k ((a, v) :: r)) with (if str_eqb a k then Some v else declared k r);
      first [change (str_eqb a k) with true | change (str_eqb a k) with false]; cbv iota
  end.
  all: try (destruct (C (y :: c) eq_refl) as [C1 C2]).
  all: try (destruct (B (x :: b) eq_refl) as [B1 B2]).
  all: rewrite ?(visible_paint_given (y :: c) C2), ?(visible_paint_given (x :: b) B2).
  all: try reflexivity.
  all: try (cbn [declared]; rewrite ?NW; reflexivity).
Qed.
End Read.

(** ** One element *)
Lemma in_pieces : forall sep s acc c, In c (rev acc ++ s) -> sep c = false ->
  exists w, In w (pieces sep acc s) /\ In c w.
Proof.
  induction s as [|x s IH]; intros acc c H S; simpl.
  - rewrite app_nil_r in H. destruct acc as [|y acc]; [easy|].
    exists (rev (y :: acc)). split; [now left|exact H].
  - apply in_app_or in H. destruct (sep x) eqn:E.
    + destruct H as [H|[->|H]]; [|congruence|].
      * destruct acc as [|y acc]; [easy|]. exists (rev (y :: acc)). split; [now left|exact H].
      * destruct (IH [] c H S) as (w & W1 & W2). exists w. split; [|exact W2].
        destruct acc; [exact W1|now right].
    + apply IH; [|exact S]. simpl. rewrite <- app_assoc. apply in_or_app. simpl. tauto.
Qed.

Section Element.
Variable fmt : R -> str.
Variable num_of : str -> option R.
Variable isfloat : R -> Prop.
Variable rgb_of : str -> result rgb.
Variable to_float : str -> result R.
Variable same : list seg -> list seg -> Prop.
Hypothesis Hfmt : good_numbers fmt num_of isfloat.
Hypothesis Hcol : css_colors rgb_of.
Hypothesis Hchars : float_chars to_float.

(** The style that is written is read back when Cairo accepts the paint. *)
Lemma look_written : forall p base o o' a b,
  fills rgb_of same o (l_fill (look_of p)) a ->
  strokes rgb_of to_float same base o' (l_stroke (look_of p)) b ->
  isfloat (width_or_1 (p_width p)) ->
  read_style num_of (paint_style fmt p) = Some (look_of p).
Proof.
  intros p base o o' a b F S W.
  assert (OC : ok_color (p_bg p)).
  { intros c E. unfold look_of in F. cbn [l_fill] in F. rewrite E in F. inversion F; subst. eauto. }
  unfold look_of in S. cbn [l_stroke] in S. destruct (given (p_color p)) as [c|] eqn:E.
  - apply read_style_written with (isfloat := isfloat); auto.
    + intros c' E'. inversion S; subst. assert (c' = c) as -> by congruence. eauto.
    + intros d E' K. inversion S as [|? ? ? ? ? ? ? H1 H2 H3 H4]; subst. rewrite E' in H4.
      destruct (in_pieces dash_sep d [] 59%N K eq_refl) as (w & W1 & W2).
      assert (X : exists x, to_float w = Ok x).
      { clear - H4 W1. induction H4; [easy|]. destruct W1 as [->|W1]; eauto. }
      destruct X as (x & X). exact (proj2 (Hchars _ _ X) W2).
  - (* without a stroke the dashes are not written *)
    set (p' := mkPaint (p_color p) (p_bg p) (p_width p) None).
    assert (PS : paint_style fmt p = paint_style fmt p').
    { unfold paint_style, p'. cbn [p_bg p_color p_width p_dash].
      destruct (p_color p) as [[|x c]|]; [reflexivity|discriminate|reflexivity]. }
    assert (PL : look_of p = look_of p').
    { unfold look_of, p'. cbn [p_bg p_color p_width p_dash]. now rewrite E. }
    rewrite PS, PL. apply read_style_written with (isfloat := isfloat); auto.
    + intros c' E'. unfold p' in E'. cbn [p_color] in E'. congruence.
    + intros d E'. discriminate.
Qed.

(** The transform attribute. *)
Definition float_rotation (rot : option R) (c : pt) : Prop :=
  match rot with Some a => isfloat a /\ float_pt isfloat c | None => True end.
Lemma rotation_zero : forall c, rotation_about 0 c = ident.
Proof.
  intros c. unfold rotation_about. replace (0 * PI / 180) with 0 by field.
  rewrite cos_0, sin_0. unfold ident. f_equal; ring.
Qed.
Lemma rotation_written : forall rot c, float_rotation rot c ->
  rotation_calls fmt rot c = [] /\ rotation_of rot c = ident \/
  exists v, rotation_calls fmt rot c = [attr "transform" v] /\
    option_map (fun r => rotation_about (fst r) (snd r)) (read_rotation num_of v)
      = Some (rotation_of rot c).
Proof.
  intros [a|] c H; [|now left]. destruct H as [H1 H2]. cbn [rotation_calls rotation_of].
  destruct (req a 0) eqn:E.
  - left. apply req_true in E. subst. split; [reflexivity|apply rotation_zero].
  - right. eexists. split; [reflexivity|].
    now rewrite (read_rotation_written fmt num_of isfloat Hfmt a c H1 H2).
Qed.

Lemma picture_intro : forall calls n al o mm p base a b,
  element_of calls = Some (n, al) -> outline_of num_of n al = Some o ->
  matrix_of num_of al = Some mm -> declared (pys "style") al = Some (paint_style fmt p) ->
  isfloat (width_or_1 (p_width p)) ->
  fills rgb_of same (map (map_seg (mul base mm)) o) (l_fill (look_of p)) a ->
  strokes rgb_of to_float same base (map (map_seg (mul base mm)) o) (l_stroke (look_of p)) b ->
  exists pic, picture_of num_of calls = Some pic /\ pic = mkPicture o mm (look_of p) /\
    painted rgb_of to_float same base pic (a ++ b).
Proof.
  intros calls n al o mm p base a b E O M S W F K.
  exists (mkPicture o mm (look_of p)). unfold picture_of. rewrite E, O, M, S.
  rewrite (look_written p base _ _ a b F K W). split; [reflexivity|split; [reflexivity|]].
  exists a, b. repeat split; assumption.
Qed.
End Element.
