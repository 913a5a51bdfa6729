(** The conversation with Inkscape: C54, C75. *)
From Coq Require Import List ZArith QArith NArith Bool String Lia.
From Verif Require Import Py PyFacts TextModel TextSpec TextCode InkModel.
Import ListNotations.

(** ** Specification *)
(** A prompt is "> " at the beginning of a line. *)
Definition line_start (p : str) : Prop := p = [] \/ exists q, p = q ++ [10%N].
Definition has_prompt (s : str) : Prop := exists p r, s = p ++ [62; 32]%N ++ r /\ line_start p.
(** The text [s] consists of an output [p] without prompt, the prompt, and the rest. *)
Definition output_then (s p rest : str) : Prop :=
  s = p ++ [62; 32]%N ++ rest /\ line_start p /\ ~ has_prompt (p ++ [62%N]).
(** [r] is the last line of the output [p], white space around the whole output left out. *)
Definition all_space (s : str) : Prop := Forall (fun c => is_space c = true) s.
Definition reply (p r : str) : Prop :=
  (r = [] /\ all_space p) \/
  exists pre x c post, r = x ++ [c] /\ is_space c = false /\ p = pre ++ r ++ post /\ all_space post /\
    Forall (fun c => ~ boundary c) r /\
    ((all_space pre /\ exists c1 y, r = c1 :: y /\ is_space c1 = false) \/
     (~ all_space pre /\ exists q b, pre = q ++ [b] /\ boundary b)).

(** ** The prompt *)
Lemma snoc_cases : forall A (l : list A), l = [] \/ exists a x, l = a ++ [x].
Proof. intros A l. destruct l as [|y l'] using rev_ind; [auto|right; eauto]. Qed.
Lemma has_prompt_app : forall s t, has_prompt s -> has_prompt (s ++ t).
Proof. intros s t [p [r [-> H]]]. exists p, (r ++ t). rewrite <- !app_assoc. auto. Qed.
Lemma prompt_new : forall w c, ~ has_prompt w -> has_prompt (w ++ [c]) ->
  exists p, w = p ++ [62%N] /\ c = 32%N /\ line_start p.
Proof.
  intros w c Hn [p [r [E L]]]. destruct (snoc_cases _ r) as [->|[r' [x ->]]].
  - rewrite app_nil_r in E. change [62%N; 32%N] with ([62%N] ++ [32%N]) in E. rewrite app_assoc in E.
    apply app_inj_tail in E. destruct E as [-> ->]. eauto.
  - exfalso. apply Hn. exists p, r'. split; auto. rewrite !app_assoc in E. apply app_inj_tail in E.
    now rewrite <- app_assoc in E.
Qed.
Lemma read_prompt_spec : forall s chars, ~ has_prompt (rev chars) ->
  (forall line rest, read_prompt chars s = Some (line, rest) ->
     exists p, output_then (rev chars ++ s) p rest /\ line = removelast p) /\
  (read_prompt chars s = None -> ~ has_prompt (rev chars ++ s)).
Proof.
  induction s as [|c s IH]; intros chars Hn; cbn [read_prompt].
  - rewrite app_nil_r. split; [discriminate|auto].
  - assert (Cond : (N.eqb c 32 && match chars with
         | [] => false
         | x :: older => N.eqb x 62 && match older with [] => true | y :: _ => N.eqb y 10 end
         end = true) <-> has_prompt (rev chars ++ [c])).
    { split.
      - intro H. apply andb_true_iff in H. destruct H as [H1 H2]. apply N.eqb_eq in H1. subst c.
        destruct chars as [|x older]; [discriminate|]. apply andb_true_iff in H2. destruct H2 as [H2 H3].
        apply N.eqb_eq in H2. subst x. exists (rev older), []. cbn [rev]. rewrite <- app_assoc. split; auto.
        destruct older as [|y older]; [now left|]. apply N.eqb_eq in H3. subst y. right. exists (rev older). reflexivity.
      - intro H. destruct (prompt_new _ _ Hn H) as [p [E [-> L]]]. rewrite N.eqb_refl. cbn [andb].
        assert (E' : chars = 62%N :: rev p).
        { rewrite <- (rev_involutive chars), E, rev_app_distr. reflexivity. }
        rewrite E', N.eqb_refl. cbn [andb]. destruct L as [->|[q ->]]; [reflexivity|].
        rewrite rev_app_distr. cbn [rev app]. apply N.eqb_refl. }
    destruct (N.eqb c 32 && _) eqn:B.
    + assert (H : has_prompt (rev chars ++ [c])) by (now apply Cond).
      destruct (prompt_new _ _ Hn H) as [p [E [-> L]]].
      split; [|discriminate]. intros line rest X. injection X as <- <-.
      exists p. split.
      * split; [rewrite E, <- app_assoc; reflexivity|]. split; auto. now rewrite <- E.
      * assert (E' : chars = 62%N :: rev p).
        { rewrite <- (rev_involutive chars), E, rev_app_distr. reflexivity. }
        rewrite E'. cbn [skipn]. destruct L as [->|[q ->]]; [reflexivity|].
        rewrite rev_app_distr. cbn [rev app skipn]. rewrite removelast_last. apply rev_involutive.
    + assert (Hn' : ~ has_prompt (rev (c :: chars))).
      { cbn [rev]. intro X. apply Cond in X. congruence. }
      destruct (IH (c :: chars) Hn') as [H1 H2]. cbn [rev] in H1, H2.
      replace ((rev chars ++ [c]) ++ s) with (rev chars ++ c :: s) in * by (now rewrite <- app_assoc).
      split; auto.
Qed.
Lemma no_prompt_nil : ~ has_prompt [].
Proof. intros [p [r [E _]]]. destruct p; discriminate. Qed.
Lemma output_det : forall s p r p' r', output_then s p r -> output_then s p' r' -> p = p' /\ r = r'.
Proof.
  assert (G : forall s p r p' r', output_then s p r -> output_then s p' r' -> (List.length p < List.length p')%nat -> False).
  { intros s p r p' r' [E [L N]] [E' [L' N']] Hl. apply N'.
    (* p ++ "> " is a prefix of p' ++ ">" *)
    assert (X : exists t, p' ++ [62%N] = (p ++ [62; 32]%N) ++ t).
    { rewrite E in E'. assert (Y : (p ++ [62; 32]%N) ++ r = (p' ++ [62%N]) ++ (32%N :: r')) by (rewrite <- !app_assoc; exact E').
      assert (Ll : (List.length (p ++ [62; 32]%N) <= List.length (p' ++ [62%N]))%nat) by (rewrite !app_length; cbn; lia).
      revert Y Ll. generalize (p ++ [62; 32]%N) (p' ++ [62%N]) r (32%N :: r'). clear.
      induction l as [|x l IH]; intros l0 r r' Y Ll; [now exists l0|].
      destruct l0 as [|y l0]; [cbn in Ll; lia|]. cbn in Y, Ll. injection Y as -> Y.
      destruct (IH l0 r r' Y ltac:(lia)) as [t ->]. now exists t. }
    destruct X as [t ->]. exists p, t. rewrite <- app_assoc. auto. }
  intros s p r p' r' H H'.
  destruct (Nat.lt_trichotomy (List.length p) (List.length p')) as [X|[X|X]].
  - destruct (G _ _ _ _ _ H H' X).
  - destruct H as [E [L _]], H' as [E' _]. rewrite E in E'.
    assert (Y : p = p' /\ [62; 32]%N ++ r = [62; 32]%N ++ r').
    { clear - E' X. revert p' X E'. induction p as [|a p IH]; intros [|b p'] X E'; try discriminate; auto.
      cbn in X, E'. injection E' as -> E'. destruct (IH p' ltac:(lia) E') as [-> ->]. auto. }
    destruct Y as [-> Y]. split; auto. now injection Y.
  - destruct (G _ _ _ _ _ H' H X).
Qed.
(** The reader finds the first prompt, and only prompts. *)
Theorem C54_prompt : forall s line rest, read_prompt [] s = Some (line, rest) <->
  exists p, output_then s p rest /\ line = removelast p.
Proof.
  intros s line rest. destruct (read_prompt_spec s [] no_prompt_nil) as [H1 H2]. cbn [rev app] in *.
  split; [apply H1|]. intros [p [H ->]]. destruct (read_prompt [] s) as [[l r]|] eqn:E.
  - destruct (H1 l r eq_refl) as [p' [H' ->]]. destruct (output_det _ _ _ _ _ H H') as [-> ->]. reflexivity.
  - exfalso. apply (H2 eq_refl). destruct H as [-> [L _]]. now exists p, rest.
Qed.
Theorem C54_no_prompt : forall s, read_prompt [] s = None <-> ~ has_prompt s.
Proof.
  intro s. destruct (read_prompt_spec s [] no_prompt_nil) as [H1 H2]. cbn [rev app] in *.
  split; [exact H2|]. intro N. destruct (read_prompt [] s) as [[l r]|] eqn:E; auto.
  destruct (H1 l r eq_refl) as [p [[-> [L _]] _]]. exfalso. apply N. now exists p, r.
Qed.
Print Assumptions C54_prompt.
Print Assumptions C54_no_prompt.

(** ** The reply *)
Lemma boundary_space : forall c, boundary c -> is_space c = true.
Proof. intros c H. unfold boundary in H. cbn [In] in H. repeat (destruct H as [<-|H]; [reflexivity|]). contradiction. Qed.
Lemma space_dec : forall s, all_space s \/ ~ all_space s.
Proof.
  induction s as [|c s IH]; [left; constructor|]. destruct (is_space c) eqn:E.
  - destruct IH as [H|H]; [left; now constructor|right; intro X; apply H; now inversion X].
  - right. intro X. inversion X. congruence.
Qed.
Lemma last_of_lines : forall s ls, has_lines s ls -> forall x c, s = x ++ [c] -> is_space c = false ->
  exists pre y, s = pre ++ last ls [] /\ last ls [] = y ++ [c] /\ Forall (fun c => ~ boundary c) (last ls []) /\
    (pre = [] \/ exists q b, pre = q ++ [b] /\ boundary b).
Proof.
  induction 1 as [|l Hn Hb|l s ls Hb Hl IH|l b s ls Hb Hbb Hcr Hl IH]; intros x c E Hc.
  - destruct x; discriminate.
  - exists [], x. cbn [last app]. auto.
  - destruct (snoc_cases _ s) as [->|[s' [c' ->]]].
    + exfalso. change (l ++ [13%N; 10%N]) with (l ++ [13%N] ++ [10%N]) in E. rewrite app_assoc in E.
      apply app_inj_tail in E. destruct E as [_ <-]. discriminate.
    + assert (Ec : c' = c).
      { change (l ++ 13%N :: 10%N :: s' ++ [c']) with (l ++ (13%N :: 10%N :: s') ++ [c']) in E.
        rewrite app_assoc in E. now apply app_inj_tail in E. }
      subst c'. destruct (IH s' c eq_refl Hc) as [pre [y [E1 [E2 [E3 E4]]]]].
      assert (Ne : ls <> []) by (intros ->; cbn in E2; destruct y; discriminate).
      assert (El : last (l :: ls) [] = last ls []) by (destruct ls; [congruence|reflexivity]).
      rewrite El. exists (l ++ 13%N :: 10%N :: pre), y. split; [rewrite E1 at 1; rewrite <- app_assoc; reflexivity|].
      split; auto. split; auto. right. destruct E4 as [->|[q [b [-> Hb']]]].
      * exists (l ++ [13%N]), 10%N. rewrite <- app_assoc. split; auto. unfold boundary. cbn. auto.
      * exists (l ++ 13%N :: 10%N :: q), b. rewrite <- app_assoc. auto.
  - destruct (snoc_cases _ s) as [->|[s' [c' ->]]].
    + exfalso. change (l ++ b :: []) with (l ++ [b]) in E. apply app_inj_tail in E. destruct E as [_ <-].
      rewrite boundary_space in Hc; auto. discriminate.
    + assert (Ec : c' = c).
      { change (l ++ b :: s' ++ [c']) with (l ++ (b :: s') ++ [c']) in E.
        rewrite app_assoc in E. now apply app_inj_tail in E. }
      subst c'. destruct (IH s' c eq_refl Hc) as [pre [y [E1 [E2 [E3 E4]]]]].
      assert (Ne : ls <> []) by (intros ->; cbn in E2; destruct y; discriminate).
      assert (El : last (l :: ls) [] = last ls []) by (destruct ls; [congruence|reflexivity]).
      rewrite El. exists (l ++ b :: pre), y. split; [rewrite E1 at 1; rewrite <- app_assoc; reflexivity|].
      split; auto. split; auto. right. destruct E4 as [->|[q [b' [-> Hb']]]].
      * exists l, b. auto.
      * exists (l ++ b :: q), b'. rewrite <- app_assoc. auto.
Qed.
Lemma strip_form : forall p, exists a b, p = a ++ strip p ++ b /\ all_space a /\ all_space b /\
  (strip p = [] \/ (exists c t, strip p = c :: t /\ is_space c = false) /\ (exists t c, strip p = t ++ [c] /\ is_space c = false)).
Proof.
  intro p. destruct (lstrip_spec p) as [a [E1 [Ha Hf]]]. destruct (rstrip_spec (lstrip p)) as [b [E2 [Hb Hl]]].
  exists a, b. unfold strip. split; [rewrite <- E2; exact E1|]. split; auto. split; auto.
  destruct Hl as [Hl|[t [c [Hl1 Hl2]]]]; [now left|]. right. split; [|eauto].
  destruct Hf as [Hf|[c0 [t0 [Hf1 Hf2]]]].
  - rewrite Hl1, Hf in E2. destruct t; discriminate.
  - rewrite Hl1 in E2 |- *. rewrite Hf1 in E2. destruct t as [|c1 t]; cbn in E2 |- *; injection E2 as <- _; eauto.
Qed.
Lemma last_line_reply : forall p, reply p (last_line p).
Proof.
  intro p. destruct (strip_form p) as [a [b [E [Ha [Hb H]]]]]. unfold last_line.
  destruct H as [H|[[c0 [t0 [H0 H0']]] [t [c [H1 H1']]]]].
  - left. rewrite H in E |- *. split; auto. rewrite E. apply Forall_app. split; auto.
  - rewrite H0 at 1. right. destruct (last_of_lines _ _ (splitlines_spec (strip p)) t c H1 H1') as [pre [y [E1 [E2 [E3 E4]]]]].
    exists (a ++ pre), y, c, b. split; auto. split; auto. split; [rewrite <- app_assoc, (app_assoc pre), <- E1; exact E|].
    split; auto. split; auto. destruct E4 as [->|[q [b0 [-> Hb0]]]].
    + left. rewrite app_nil_r. split; auto. exists c0, t0. cbn [app] in E1. rewrite <- E1. auto.
    + right. split; [|exists (a ++ q), b0; rewrite <- app_assoc; auto].
      intro X. apply Forall_app in X. destruct X as [_ X]. rewrite H0 in E1.
      destruct (q ++ [b0]) as [|c1 q1] eqn:Eq; [destruct q; discriminate|]. cbn in E1. injection E1 as <- _.
      inversion X. congruence.
Qed.
Lemma removelast_line : forall p, line_start p -> strip (removelast p) = strip p.
Proof.
  intros p [->|[q ->]]; [reflexivity|]. rewrite removelast_last. unfold strip.
  (* a newline at the end is stripped *)
  assert (R : forall s b, all_space b -> rstrip (s ++ b) = rstrip s).
  { intros s b Hb. unfold rstrip. f_equal. rewrite rev_app_distr.
    assert (Hr : all_space (rev b)) by (apply Forall_rev; exact Hb). clear Hb.
    induction (rev b) as [|c l IH]; [reflexivity|]. inversion Hr; subst. unfold lstrip in *. cbn [app span].
    rewrite H1. destruct (span is_space (l ++ rev s)) eqn:Es. cbn [snd] in *. now apply IH. }
  assert (L : lstrip (q ++ [10%N]) = lstrip q ++ [10%N] \/ (lstrip q = [] /\ lstrip (q ++ [10%N]) = [])).
  { induction q as [|c q IH]; [right; split; reflexivity|]. unfold lstrip in *. cbn [app span].
    destruct (is_space c); [|left; reflexivity].
    destruct (span is_space (q ++ [10%N])), (span is_space q). cbn [snd] in *. exact IH. }
  destruct L as [->|[L1 L2]]; [|now rewrite L1, L2].
  rewrite R; auto. repeat constructor.
Qed.

(** ** Commands *)
Section Shell.
Variable S : Type.
Variable respond : S -> str -> S * str * bool.
Notation shell := (@shell S).
Notation run_command := (run_command S respond).
Notation run_commands := (run_commands S respond).

(** Nothing unread and the process runs. *)
Definition fresh (h : shell) : Prop := sh_unread h = [] /\ sh_runs h = true.
(** Inkscape answers each command by an output without prompt, and a prompt. *)
Definition well_behaved : Prop := forall s c s' out runs, respond s c = (s', out, runs) ->
  runs = true /\ exists p, output_then out p [].

(** One command: the reply is the last line of what was printed, what follows the prompt is
    left unread. *)
Theorem C54_command : forall h c s out runs p rest, fresh h -> respond (sh_state h) c = (s, out, runs) ->
  output_then out p rest ->
  exists r, run_command h c = (mkShell s rest runs (c :: sh_sent h), Done r) /\ reply p r.
Proof.
  intros h c s out runs p rest [F1 F2] R O. unfold InkModel.run_command, send. rewrite F2, R, F1. cbn [app].
  unfold wait_for_prompt. cbn [sh_unread sh_state sh_runs sh_sent].
  rewrite (proj2 (C54_prompt out (removelast p) rest) (ex_intro _ p (conj O eq_refl))).
  exists (last_line (removelast p)). split; [reflexivity|].
  unfold last_line. rewrite (removelast_line p (proj1 (proj2 O))). apply last_line_reply.
Qed.
(** A whole conversation: the n-th reply belongs to the n-th command. *)
Inductive conversation : S -> list str -> list str -> S -> Prop :=
| conv_nil : forall s, conversation s [] [] s
| conv_cons : forall s c s1 out p r cs rs s2, respond s c = (s1, out, true) -> output_then out p [] -> reply p r ->
    conversation s1 cs rs s2 -> conversation s (c :: cs) (r :: rs) s2.
Theorem C54_conversation : forall cs h, well_behaved -> fresh h ->
  exists rs s, run_commands h cs = (mkShell s [] true (rev cs ++ sh_sent h), Done rs) /\
    conversation (sh_state h) cs rs s.
Proof.
  induction cs as [|c cs IH]; intros h W F.
  - exists [], (sh_state h). destruct F as [F1 F2]. destruct h as [st un rn sn]; cbn in *; subst. split; [reflexivity|constructor].
  - destruct (respond (sh_state h) c) as [[s1 out] runs] eqn:R. destruct (W _ _ _ _ _ R) as [-> [p O]].
    destruct (C54_command h c s1 out true p [] F R O) as [r [E Hr]].
    destruct (IH (mkShell s1 [] true (c :: sh_sent h)) W (conj eq_refl eq_refl)) as [rs [s2 [E2 C]]].
    exists (r :: rs), s2. split.
    + cbn [InkModel.run_commands]. rewrite E. cbn [obind]. rewrite E2. cbn [obind sh_sent rev]. now rewrite <- app_assoc.
    + econstructor; eauto.
Qed.
(** If the process ends before it prints a prompt, the call neither returns nor raises. *)
Theorem C54_ended_refuted : forall h c s out, fresh h -> respond (sh_state h) c = (s, out, false) ->
  ~ has_prompt out -> snd (run_command h c) = Spins.
Proof.
  intros h c s out [F1 F2] R N. unfold InkModel.run_command, send. rewrite F2, R, F1. cbn [app].
  unfold wait_for_prompt. cbn [sh_unread]. rewrite (proj2 (C54_no_prompt out) N). reflexivity.
Qed.
(** An ended process is noticed when something is to be sent to it. *)
Theorem C54_ended_partial : forall h c, sh_runs h = false -> run_command h c = (h, Failed EException).
Proof. intros h c H. unfold InkModel.run_command, send. now rewrite H. Qed.

(** ** C75 *)
Variable parse_float : str -> option Q.

(** The documents that the commands leave open (commands newest first). *)
Fixpoint opened (cmds : list str) : nat :=
  match cmds with
  | [] => 0
  | c :: cmds' =>
      if str_eqb c (pys "file-close") then Nat.pred (opened cmds')
      else if startswith (pys "file-open:") c then Datatypes.S (opened cmds') else opened cmds'
  end.
Lemma query_run : forall h name query id, well_behaved -> fresh h ->
  exists rs s, run_commands h [pys "file-open:" ++ name; pys "select:" ++ id; query] =
     (mkShell s [] true (query :: (pys "select:" ++ id) :: (pys "file-open:" ++ name) :: sh_sent h), Done rs) /\
    conversation (sh_state h) [pys "file-open:" ++ name; pys "select:" ++ id; query] rs s.
Proof. intros h name query id W F. exact (C54_conversation _ h W F). Qed.

(** A measurement that succeeds gives the number that Inkscape printed last for the query, and
    the file is closed again. *)
Theorem C75_query_partial : forall h name query id, well_behaved -> fresh h ->
  exists r1 r2 r s, conversation (sh_state h) [pys "file-open:" ++ name; pys "select:" ++ id; query] [r1; r2; r] s /\
  match parse_float r with
  | Some x => exists s', run_query S respond parse_float name h query id =
      (mkShell s' [] true (pys "file-close" :: query :: (pys "select:" ++ id) :: (pys "file-open:" ++ name) :: sh_sent h), Done x)
  | None => run_query S respond parse_float name h query id =
      (mkShell s [] true (query :: (pys "select:" ++ id) :: (pys "file-open:" ++ name) :: sh_sent h), Failed EException)
  end.
Proof.
  intros h name query id W F.
  assert (one : forall h c, fresh h -> exists s1 r out p, run_command h c = (mkShell s1 [] true (c :: sh_sent h), Done r) /\
    respond (sh_state h) c = (s1, out, true) /\ output_then out p [] /\ reply p r).
  { intros h0 c F0. destruct (respond (sh_state h0) c) as [[s1 out] runs] eqn:R.
    destruct (W _ _ _ _ _ R) as [-> [p O]]. destruct (C54_command h0 c s1 out true p [] F0 R O) as [r [E Hr]].
    exists s1, r, out, p. auto. }
  destruct (one h (pys "file-open:" ++ name) F) as [s1 [r1 [o1 [p1 [E1 [R1 [O1 P1]]]]]]].
  destruct (one (mkShell s1 [] true ((pys "file-open:" ++ name) :: sh_sent h)) (pys "select:" ++ id) (conj eq_refl eq_refl))
    as [s2 [r2 [o2 [p2 [E2 [R2 [O2 P2]]]]]]].
  cbn [sh_state sh_sent] in E2, R2.
  destruct (one (mkShell s2 [] true ((pys "select:" ++ id) :: (pys "file-open:" ++ name) :: sh_sent h)) query (conj eq_refl eq_refl))
    as [s3 [r3 [o3 [p3 [E3 [R3 [O3 P3]]]]]]].
  cbn [sh_state sh_sent] in E3, R3.
  exists r1, r2, r3, s3. split.
  { econstructor; [exact R1|exact O1|exact P1|]. econstructor; [exact R2|exact O2|exact P2|].
    econstructor; [exact R3|exact O3|exact P3|]. constructor. }
  unfold run_query, svg_file_input. rewrite E1. cbn [obind]. rewrite E2. cbn [obind]. rewrite E3. cbn [obind].
  destruct (parse_float r3) as [x|] eqn:Px; cbn [obind]; [|reflexivity].
  destruct (one (mkShell s3 [] true (query :: (pys "select:" ++ id) :: (pys "file-open:" ++ name) :: sh_sent h)) (pys "file-close") (conj eq_refl eq_refl))
    as [s4 [r4 [o4 [p4 [E4 _]]]]].
  cbn [sh_state sh_sent] in E4. rewrite E4. cbn [obind]. eexists. reflexivity.
Qed.
(** A measurement that fails leaves the file open. *)
Theorem C75_open_refuted : forall h name id, well_behaved -> fresh h ->
  snd (run_query S respond parse_float name h (pys "query-width") id) = Failed EException ->
  opened (sh_sent (fst (run_query S respond parse_float name h (pys "query-width") id))) = Datatypes.S (opened (sh_sent h)).
Proof.
  intros h name id W F H.
  destruct (C75_query_partial h name (pys "query-width") id W F) as [r1 [r2 [r [s [_ X]]]]].
  destruct (parse_float r) as [x|].
  - destruct X as [s' X]. rewrite X in H. discriminate.
  - rewrite X. cbn [fst sh_sent opened]. reflexivity.
Qed.
(** Exporting closes the file. *)
Theorem C75_export : forall h name tp target type, well_behaved -> fresh h ->
  exists s rs, convert_to_pdf S respond tp name h target type =
    (mkShell s [] true (pys "file-close" :: rev (export_commands tp target type) ++ (pys "file-open:" ++ name) :: sh_sent h), Done rs) /\
  opened (pys "file-close" :: rev (export_commands tp target type) ++ (pys "file-open:" ++ name) :: sh_sent h) = opened (sh_sent h).
Proof.
  intros h name tp target type W F.
  assert (one : forall h c, fresh h -> exists s1 r, run_command h c = (mkShell s1 [] true (c :: sh_sent h), Done r)).
  { intros h0 c F0. destruct (respond (sh_state h0) c) as [[s1 out] runs] eqn:R.
    destruct (W _ _ _ _ _ R) as [-> [p O]]. destruct (C54_command h0 c s1 out true p [] F0 R O) as [r [E Hr]]. eauto. }
  destruct (one h (pys "file-open:" ++ name) F) as [s1 [r1 E1]].
  destruct (C54_conversation (export_commands tp target type) (mkShell s1 [] true ((pys "file-open:" ++ name) :: sh_sent h)) W (conj eq_refl eq_refl))
    as [rs [s2 [E2 _]]].
  cbn [sh_sent] in E2.
  destruct (one (mkShell s2 [] true (rev (export_commands tp target type) ++ (pys "file-open:" ++ name) :: sh_sent h)) (pys "file-close") (conj eq_refl eq_refl)) as [s3 [r3 E3]].
  cbn [sh_sent] in E3.
  exists s3, rs. split.
  - unfold convert_to_pdf, svg_file_input. rewrite E1. cbn [obind]. rewrite E2. cbn [obind]. rewrite E3. reflexivity.
  - destruct tp; reflexivity.
Qed.
(** The export succeeds exactly when the target is a file after Inkscape has answered all
    commands; otherwise it raises.  In both cases the file that was opened is closed and the
    conversation can go on. *)
Theorem C75_exported : forall h name tp target type file, well_behaved -> fresh h ->
  exists s h' r, export_by_inkscape S respond tp name h target type file = (h', r) /\ fresh h' /\
    sh_state h' = s /\ opened (sh_sent h') = opened (sh_sent h) /\
    (r = Done tt /\ file s target = true \/ r = Failed EException /\ file s target = false).
Proof.
  intros h name tp target type file W F.
  destruct (C75_export h name tp target type W F) as (s & rs & E & O).
  unfold export_by_inkscape. rewrite E. cbn [obind sh_state].
  exists s. destruct (file s target) eqn:X; eexists _, _; (split; [reflexivity|]);
    (split; [split; reflexivity|]); auto.
Qed.
(** Inkscape that has ended: no success. *)
Theorem C75_export_ended : forall h name tp target type file, sh_runs h = false ->
  export_by_inkscape S respond tp name h target type file = (h, Failed EException).
Proof.
  intros h name tp target type file H. unfold export_by_inkscape, convert_to_pdf, svg_file_input.
  rewrite (C54_ended_partial h _ H). reflexivity.
Qed.
(** It tells Inkscape type and target before it lets it write. *)
Theorem C75_export_commands : forall tp target type, exists cmds,
  export_commands tp target type = cmds ++ [pys "export-do"] /\
  In (pys "export-area-page") cmds /\
  In (pys "export-type:" ++ type) cmds /\ In (pys "export-filename:" ++ target) cmds /\
  (In (pys "export-text-to-path") cmds <-> tp = true) /\ ~ In (pys "export-do") cmds.
Proof.
  intros tp target type. eexists. split; [unfold export_commands; rewrite app_assoc; reflexivity|].
  split; [cbn [app In]; tauto|]. split; [cbn [app In]; tauto|]. split; [cbn [app In]; tauto|]. split.
  - destruct tp; cbn [app In]; split; intro H; auto 10; try discriminate.
    repeat (destruct H as [H|H]; [discriminate|]). contradiction.
  - destruct tp; cbn [app In]; intro H; repeat (destruct H as [H|H]; [discriminate|]); contradiction.
Qed.
End Shell.
Print Assumptions C54_command.
Print Assumptions C54_conversation.
Print Assumptions C54_ended_refuted.
Print Assumptions C54_ended_partial.
Print Assumptions C75_query_partial.
Print Assumptions C75_open_refuted.
Print Assumptions C75_export.
Print Assumptions C75_exported.
Print Assumptions C75_export_ended.
Print Assumptions C75_export_commands.

(** A well-behaved process, and one that ends. *)
Definition ex_respond (s : nat) (c : str) : nat * str * bool :=
  (Datatypes.S s, pys "warning" ++ [10%N] ++ c ++ [10%N] ++ pys "> ", true).
Example ex_C54 : snd (run_command nat ex_respond (mkShell 0%nat [] true []) (pys "12.5")) = Done (pys "12.5").
Proof. vm_compute. reflexivity. Qed.
Definition ex_silent (s : nat) (c : str) : nat * str * bool :=
  (Datatypes.S s, (if str_eqb c (pys "query-width") then pys "12.5" ++ [10%N] else []) ++ pys "> ", true).
Lemma ex_silent_ok : well_behaved nat ex_silent.
Proof.
  intros s c s' out runs H. unfold ex_silent in H. injection H as <- <- <-. split; auto.
  destruct (str_eqb c (pys "query-width")).
  - exists (pys "12.5" ++ [10%N]). split; [reflexivity|]. split; [right; eexists; reflexivity|].
    apply C54_no_prompt. vm_compute. reflexivity.
  - exists []. split; [reflexivity|]. split; [left; reflexivity|]. apply C54_no_prompt. vm_compute. reflexivity.
Qed.
Example ex_C75 : snd (run_query nat ex_silent (fun _ => Some 1%Q) (pys "/tmp/a.svg") (mkShell 0%nat [] true []) (pys "query-width") (pys "target")) = Done 1%Q /\
  snd (run_query nat ex_silent (fun _ => None) (pys "/tmp/a.svg") (mkShell 0%nat [] true []) (pys "query-width") (pys "target")) = Failed EException.
Proof. split; vm_compute; reflexivity. Qed.
(** With a target that is never written, and with one that is there after the eighth command. *)
Example ex_C75_exported :
  snd (export_by_inkscape nat ex_silent true (pys "/tmp/a.svg") (mkShell 0%nat [] true []) (pys "a.pdf") (pys "pdf")
         (fun _ _ => false)) = Failed EException /\
  snd (export_by_inkscape nat ex_silent true (pys "/tmp/a.svg") (mkShell 0%nat [] true []) (pys "a.pdf") (pys "pdf")
         (fun s f => Nat.leb 7 s && str_eqb f (pys "a.pdf"))) = Done tt.
Proof. split; vm_compute; reflexivity. Qed.
