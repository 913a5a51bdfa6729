(** Properties C36-C38 and C70: styles and style containers. *)
From Coq Require Import List ZArith NArith QArith Bool String Lia.
From Verif Require Import Py PyFacts StyleModel StyleSpec StyleProofs.
Import ListNotations.
Local Open Scope nat_scope.

Ltac no_bind := match goal with
  | H : _ /\ _ \/ _ /\ _ |- _ => destruct H as [[X _]|[X _]]; discriminate
  end.
Ltac cases E := inversion E; subst; try no_bind; try contradiction.

(** ** C36 *)

(** style.compose(style') returns a new object that takes every attribute from style'
    where it is specified there and from style otherwise; no other object changes. *)
Theorem C36_compose : forall named t w l l' w' k, history named t w ->
  act w (ACompose l l') = (w', Ok k) ->
  ~ is_object w k /\
  (forall j, is_object w j -> nth_error (w_styles w') j = nth_error (w_styles w) j) /\
  exists a b c, nth_error (w_styles w) l = Some a /\ nth_error (w_styles w) l' = Some b /\
    nth_error (w_styles w') k = Some c /\ combined a b c.
Proof.
  intros named t w l l' w' k Hh E. apply act_did in E; [|eapply history_wf; eauto].
  cases E. match goal with H : _ /\ _ /\ _ |- _ => destruct H as [H1 [H2 ->]] end. split; [unfold is_object; lia|]. split.
  - intros j Hj. cbn [w_styles]. apply nth_error_app1. exact Hj.
  - exists (style_at w l), (style_at w l'). eexists.
    split; [now apply nth_error_nth_style|]. split; [now apply nth_error_nth_style|].
    split; [|apply combined_update]. cbn [w_styles].
    rewrite nth_error_app2, Nat.sub_diag; auto.
Qed.
Print Assumptions C36_compose.

(** style.update(style') changes style in this way, and no other object. *)
Theorem C36_update : forall named t w l l' w' k, history named t w ->
  act w (AUpdate l l') = (w', Ok k) ->
  (forall j, j <> l -> nth_error (w_styles w') j = nth_error (w_styles w) j) /\
  exists a b c, nth_error (w_styles w) l = Some a /\ nth_error (w_styles w) l' = Some b /\
    nth_error (w_styles w') l = Some c /\ combined a b c.
Proof.
  intros named t w l l' w' k Hh E. apply act_did in E; [|eapply history_wf; eauto].
  cases E.
  - cbn [w_styles]. split; [intros j Hj; apply nth_error_replace_other; auto|].
    exists (style_at w k), (style_at w l'). eexists.
    split; [now apply nth_error_nth_style|]. split; [now apply nth_error_nth_style|].
    split; [|apply combined_update]. now apply nth_error_replace_same.
Qed.
Print Assumptions C36_update.

(** Composition is associative and TextStyle() is a left identity. *)
Theorem C36_associative : forall a b c, compose (compose a b) c = compose a (compose b c).
Proof. exact update_assoc. Qed.
Print Assumptions C36_associative.
Theorem C36_left_identity : forall a e, valid_style a -> make_style no_args = Ok e ->
  compose e a = a.
Proof.
  intros a e V H. apply make_style_ok in H. destruct H as [_ ->].
  apply style_eq. intros x. unfold compose. rewrite update_get.
  destruct (get a x) eqn:E; auto. destruct x; auto.
  specialize (V Priority). cbn [allowed] in V. rewrite E in V.
  destruct V as [[q V]|[q V]]; discriminate.
Qed.
Print Assumptions C36_left_identity.

(** Full statement: TextStyle() is a right identity.  Missing: styles with a priority; they
    lose it, because every style specifies a priority (0 by default). *)
Theorem C36_right_identity_partial : forall a, get a Priority = PNum 0 -> compose a no_args = a.
Proof.
  intros a H. apply style_eq. intros x. unfold compose. rewrite update_get.
  destruct x; cbn [get no_args]; auto.
Qed.
Print Assumptions C36_right_identity_partial.
Definition style_prio (n : Z) : style :=
  mkStyle PNone PNone PNone PNone PNone PNone PNone PNone PNone (PNum (inject_Z n)).
Theorem C36_right_identity_refuted : exists a e, valid_style a /\ make_style no_args = Ok e /\
  compose a e <> a /\ get (compose a e) Priority <> get a Priority.
Proof.
  exists (style_prio 5), no_args. split.
  { intros []; cbn; auto. left. eauto. }
  split; [reflexivity|]. split; vm_compute; discriminate.
Qed.
Print Assumptions C36_right_identity_refuted.

Definition red : style :=
  mkStyle PNone PNone PNone PNone (PStr (pys "red")) (PBool false) PNone PNone PNone (PNum 0).
Definition big_bold : style :=
  mkStyle PNone (PNum 40) PNone PNone (PStr (pys "blue")) (PBool true) PNone PNone PNone (PNum 3).
Definition demo_named : list (str * style) :=
  [(default_, big_bold); (pys "tt", red)].
Example ex_C36 : exists w t k w', history demo_named t w /\
  act w (ACompose 0 1) = (w', Ok k) /\ k = 2 /\
  nth_error (w_styles w') k = Some (mkStyle PNone (PNum 40) PNone PNone (PStr (pys "red"))
    (PBool false) PNone PNone PNone (PNum 0)).
Proof.
  exists (new_deck demo_named), []. do 2 eexists. split; [constructor|].
  split; [vm_compute; reflexivity|]. split; vm_compute; reflexivity.
Qed.

(** ** C37 *)

(** In any history: an action that does not change style objects in place changes nothing
    in a container except under the name it sets or updates there. *)
Theorem C37_scoping : forall named t w a w' r c n, history named t w -> act w a = (w', r) ->
  ~ mutates a -> is_container w c -> ~ concerns c n a -> known w' c n = known w c n.
Proof.
  intros named t w a w' r c n Hh E Hm Hc Hn. assert (W := history_wf _ _ _ Hh).
  eapply did_known; eauto. eapply act_did; eauto.
Qed.
Print Assumptions C37_scoping.

(** set_style binds the name to the given style (default base) or to the composition of
    the base and the given style. *)
Theorem C37_set_style : forall named t w c n l base w' r, history named t w ->
  is_container w c -> is_object w l -> act w (ASetStyle c n l base) = (w', r) ->
  match r with
  | Ok k => exists s s', nth_error (w_styles w) l = Some s /\ known w' c n = Some s' /\
      nth_error (w_styles w') k = Some s' /\
      ((base = pys "default" /\ s' = s) \/
       (base <> pys "default" /\ exists b, known w c base = Some b /\ combined b s s'))
  | Err _ => base <> pys "default" /\ known w c base = None
  end.
Proof.
  intros named t w c n l base w' r Hh Hc Hl E. assert (W := history_wf _ _ _ Hh).
  unfold is_container, is_object in *.
  destruct r as [k|e].
  - apply act_did in E; auto. inversion E; subst; [contradiction| |].
    + exists (style_at w k), (style_at w k). split; [now apply nth_error_nth_style|].
      destruct (known_bind w [] n k c W) as [K _]; auto; [now rewrite app_nil_r|].
      rewrite app_nil_r in K. rewrite K. cbn [w_styles].
      split; [now apply nth_error_nth_style|]. split; [now apply nth_error_nth_style|]. left. auto.
    + match goal with H : _ /\ _ \/ _ /\ _ |- _ => destruct H as [[X _]|[X Hb]] end;
        [discriminate|]. match goal with H : assoc _ _ = Some _ |- _ => rename H into HA end. injection X as <- <- <- <-.
      exists (style_at w l). eexists. split; [now apply nth_error_nth_style|].
      destruct (known_bind w [update (style_at w b) (style_at w l)] n
        (List.length (w_styles w)) c W) as [K _]; auto; [rewrite app_length; cbn; lia|].
      rewrite K. cbn [w_styles]. rewrite nth_error_app2, Nat.sub_diag; auto.
      split; [reflexivity|]. split; [reflexivity|]. right. split; auto.
      exists (style_at w b). split; [|apply combined_update].
      unfold known. unfold entries, dict_of in HA. rewrite HA. apply nth_error_nth_style.
      eapply wf_dicts; eauto.
  - unfold act in E. apply Nat.ltb_lt in Hc. apply Nat.ltb_lt in Hl. rewrite Hc, Hl in E.
    cbn [andb] in E. unfold set_style in E.
    destruct (str_eqb base default_) eqn:D; [discriminate|].
    split; [intros ->; vm_compute in D; discriminate|].
    unfold get_style in E. unfold known. unfold entries, dict_of in E.
    destruct (assoc base (nth (nth c (w_conts w) 0) (w_dicts w) [])) as [b|]; auto.
    exfalso. rewrite D in E. cbn [negb rbind copy_style alloc_style] in E.
    destruct (copy_style w b). discriminate.
Qed.
Print Assumptions C37_set_style.

(** has_style tells whether the name is known in the container, which is when get_style finds
    it. *)
Theorem C37_has_style : forall named t w c n, history named t w ->
  (has_style w c n = true <-> exists s, known w c n = Some s) /\
  (has_style w c n = true <-> exists w' k, get_style w c (ByName n) false = Ok (w', k)).
Proof.
  intros named t w c n Hh. assert (W := history_wf _ _ _ Hh). unfold has_style, known, get_style.
  change (nth (nth c (w_conts w) 0) (w_dicts w) []) with (entries w c).
  destruct (assoc n (entries w c)) as [l|] eqn:A.
  - split; split; try reflexivity; intros _.
    + eexists. apply nth_error_nth_style. eapply wf_dicts; eauto.
    + destruct (str_eqb n default_); cbn [negb]; destruct (copy_style w l) as [w' k]; eauto.
  - split; split; try discriminate; [intros (s & E)|intros (w' & k & E)]; discriminate.
Qed.
Print Assumptions C37_has_style.

(** update_style binds the name to the composition of the old and the given style and
    raises if the name is unknown. *)
Theorem C37_update_style : forall named t w c n l w' r, history named t w ->
  is_container w c -> is_object w l -> act w (AUpdateStyle c n l) = (w', r) ->
  match r with
  | Ok k => exists old s s', known w c n = Some old /\ nth_error (w_styles w) l = Some s /\
      known w' c n = Some s' /\ nth_error (w_styles w') k = Some s' /\ combined old s s'
  | Err _ => known w c n = None
  end.
Proof.
  intros named t w c n l w' r Hh Hc Hl E. assert (W := history_wf _ _ _ Hh).
  unfold is_container, is_object in *.
  destruct r as [k|e].
  - apply act_did in E; auto. inversion E; subst; [contradiction|].
    match goal with H : _ /\ _ \/ _ /\ _ |- _ => destruct H as [[X Hb]|[X Hb]] end;
      [|discriminate]. match goal with H : assoc _ _ = Some _ |- _ => rename H into HA end. injection X as <- <- <-. subst base.
    exists (style_at w b), (style_at w l). eexists. split.
    { unfold known. unfold entries, dict_of in HA. rewrite HA. apply nth_error_nth_style.
      eapply wf_dicts; eauto. }
    split; [now apply nth_error_nth_style|].
    destruct (known_bind w [update (style_at w b) (style_at w l)] n
        (List.length (w_styles w)) c W) as [K _]; auto; [rewrite app_length; cbn; lia|].
    rewrite K. cbn [w_styles]. rewrite nth_error_app2, Nat.sub_diag; auto.
    split; [reflexivity|]. split; [reflexivity|]. apply combined_update.
  - unfold act in E. apply Nat.ltb_lt in Hc. apply Nat.ltb_lt in Hl. rewrite Hc, Hl in E.
    cbn [andb] in E. unfold update_style, get_style in E. unfold known. unfold entries, dict_of in E.
    destruct (assoc n (nth (nth c (w_conts w) 0) (w_dicts w) [])) as [b|]; auto.
    exfalso. cbn [negb] in E. destruct (str_eqb n default_); cbn [rbind] in E;
      destruct (copy_style w b); discriminate.
Qed.
Print Assumptions C37_update_style.

(** A new box knows what its parent knows at that time, a new slide what the deck knows. *)
Theorem C37_new_box : forall named t w c w' k n, history named t w ->
  act w (ANewBox c) = (w', Ok k) \/ c = 0 /\ act w ANewSlide = (w', Ok k) ->
  ~ is_container w k /\ is_container w' k /\ known w' k n = known w c n.
Proof.
  intros named t w c w' k n Hh E. assert (W := history_wf _ _ _ Hh). unfold is_container.
  destruct E as [E|[-> E]]; apply act_did in E; auto; inversion E; subst; try contradiction;
    try no_bind.
  - cbn [w_conts]. rewrite app_length. cbn. split; [lia|]. split; [lia|].
    unfold known. cbn [w_styles w_dicts w_conts]. now rewrite nth_app_new.
  - cbn [w_conts]. rewrite app_length. cbn. split; [lia|]. split; [lia|].
    unfold known. cbn [w_styles w_dicts w_conts]. now rewrite !nth_app_new.
Qed.
Print Assumptions C37_new_box.

(** A text keeps the styles that its box knew when the text was created: no later action
    changes its dictionary, whatever is set or updated anywhere. *)
Theorem C37_text_keeps_styles : forall named t w a w' r n, history named t w ->
  act w a = (w', r) -> ~ mutates a ->
  forall d, d < List.length (w_dicts w) ->
  known_in_dict w' d n = known_in_dict w d n.
Proof.
  intros named t w a w' r n Hh E Hm d Hd. assert (W := history_wf _ _ _ Hh).
  apply act_did in E; auto. apply known_in_dict_extend; auto.
  - eapply did_styles; eauto.
  - eapply did_dicts; eauto.
Qed.
Print Assumptions C37_text_keeps_styles.

(** Deck 0, slide 1 with box 2; the name "tt" is set in box 2 after box 3 was made in it. *)
Definition run (w : world) (l : list action) : world :=
  fold_left (fun w a => fst (act w a)) l w.
Lemma run_history : forall named l t w, history named t w ->
  exists t', history named t' (run w l).
Proof.
  intros named l. induction l as [|a l IH]; intros t w H; cbn; eauto.
  destruct (act w a) as [w' r] eqn:E. cbn. eapply IH. eapply h_act; eauto.
Qed.
Definition demo_actions : list action := [ANewSlide; ANewBox 1; ANewBox 2; AStyle red].
Definition demo : world := run (new_deck demo_named) demo_actions.
Example ex_C37 : (exists t, history demo_named t demo) /\ exists w' w'' k k',
  act demo (ASetStyle 2 (pys "tt") 2 (pys "default")) = (w', Ok k) /\
  act w' (ANewBox 2) = (w'', Ok k') /\ k' = 4 /\
  act demo (AUpdateStyle 2 (pys "tt") 2) <> act demo (ASetStyle 2 (pys "tt") 2 (pys "default")) /\
  known w'' 2 (pys "tt") = Some red /\ known w'' 4 (pys "tt") = Some red /\
  known w'' 3 (pys "tt") = Some red /\ known demo 2 (pys "nope") = None /\
  has_style w'' 4 (pys "tt") = true /\ has_style demo 2 (pys "nope") = false.
Proof.
  split. { eapply run_history. constructor. }
  do 4 eexists. split; [vm_compute; reflexivity|]. split; [vm_compute; reflexivity|].
  repeat split; vm_compute; congruence.
Qed.

(** ** C38 *)

(** Full statement: changing a style object in place never changes what a container knows.
    Missing: the objects returned by set_style and update_style (refuted below).  All
    others, in particular those returned by get_style and those given to update_style or to
    set_style with a base, are private. *)
Theorem C38_private_partial : forall named t w a l w' r c n, history named t w ->
  (exists x v, a = AAssign l x v) \/ (exists l', a = AUpdate l l') ->
  List.length named <= l -> ~ handed_out t l -> act w a = (w', r) ->
  known w' c n = known w c n.
Proof.
  intros named t w a l w' r c n Hh Ha Hl Hn E. assert (W := history_wf _ _ _ Hh).
  assert (S : ~ stored w l).
  { intro S. destruct (history_stored _ _ _ _ Hh S); [lia|contradiction]. }
  apply act_did in E; auto.
  destruct Ha as [[x [v ->]]|[l' ->]]; inversion E; subst; try contradiction;
    try no_bind;
    auto; now apply write_unstored.
Qed.
Print Assumptions C38_private_partial.

(** get_style returns a new object each time. *)
Theorem C38_get_style_fresh : forall named t w c x full w' k, history named t w ->
  act w (AGet c x full) = (w', Ok k) ->
  ~ is_object w k /\ List.length named <= k /\ ~ handed_out (t ++ [(AGet c x full, Ok k)]) k.
Proof.
  intros named t w c x full w' k Hh E. assert (W := history_wf _ _ _ Hh).
  assert (L : forall t w, history named t w -> List.length named <= List.length (w_styles w) /\
    forall l, handed_out t l -> l < List.length (w_styles w)).
  { clear. intros t w H. induction H as [|t w a w' r H [IH1 IH2] E].
    - cbn. rewrite map_length. split; auto. intros l [a [[] _]].
    - apply act_did in E; [|eapply history_wf; eauto].
      assert (G : List.length (w_styles w) <= List.length (w_styles w')).
      { destruct E; cbn [w_styles]; rewrite ?app_length, ?length_replace; lia. }
      split; [lia|]. intros l [b [Hb1 Hb2]]. apply in_app_or in Hb1.
      destruct Hb1 as [Hb1|[Hb1|[]]].
      + assert (l < List.length (w_styles w)); [|lia]. apply IH2. exists b. auto.
      + injection Hb1 as -> ->. inversion E; subst; try contradiction; cbn [w_styles]; auto.
        * destruct b; contradiction.
        * rewrite app_length. cbn. lia. }
  apply act_did in E; auto. cases E.
  destruct (L _ _ Hh) as [L1 L2]. unfold is_object. split; [lia|]. split; [lia|].
  intros [b [Hb1 Hb2]]. apply in_app_or in Hb1. destruct Hb1 as [Hb1|[Hb1|[]]].
  - assert (List.length (w_styles w) < List.length (w_styles w)); [|lia]. apply L2. exists b. auto.
  - injection Hb1 as <-. contradiction.
Qed.
Print Assumptions C38_get_style_fresh.

(** A style given to set_style of two boxes is shared by both: changing it afterwards
    changes what both know, and also what the children created meanwhile know. *)
Definition shared : world := run demo
  [ASetStyle 2 (pys "a") 2 (pys "default"); ASetStyle 1 (pys "a") 2 (pys "default")].
Theorem C38_private_refuted : exists named t w l a w' r c c' n,
  history named t w /\ a = AAssign l Color (PStr (pys "green")) /\ act w a = (w', r) /\
  c <> c' /\ known w' c n <> known w c n /\ known w' c' n <> known w c' n.
Proof.
  destruct (run_history demo_named (demo_actions ++
    [ASetStyle 2 (pys "a") 2 (pys "default"); ASetStyle 1 (pys "a") 2 (pys "default")])
    [] (new_deck demo_named) (h_start _)) as [t Ht].
  exists demo_named, t, shared, 2. do 2 eexists. eexists. exists 1, 2, (pys "a").
  split; [exact Ht|]. split; [reflexivity|]. split; [reflexivity|].
  split; [congruence|]. split; vm_compute; discriminate.
Qed.
Print Assumptions C38_private_refuted.

(** update_style returns the stored object itself. *)
Theorem C38_update_style_refuted : exists named t w l a w' r c n,
  history named t w /\ (exists c0 n0 l0 w0 t0, history named t0 w0 /\
     act w0 (AUpdateStyle c0 n0 l0) = (w, Ok l)) /\
  a = AAssign l Color (PStr (pys "green")) /\ act w a = (w', r) /\ known w' c n <> known w c n.
Proof.
  destruct (run_history demo_named (demo_actions ++ [AUpdateStyle 2 (pys "tt") 2])
    [] (new_deck demo_named) (h_start _)) as [t Ht].
  destruct (run_history demo_named demo_actions [] (new_deck demo_named) (h_start _)) as [t0 Ht0].
  exists demo_named, t. eexists. exists 3. do 3 eexists. exists 2, (pys "tt").
  split; [exact Ht|]. split.
  { exists 2, (pys "tt"), 2. do 2 eexists. split; [exact Ht0|]. vm_compute. reflexivity. }
  split; [reflexivity|]. split; [reflexivity|]. vm_compute. discriminate.
Qed.
Print Assumptions C38_update_style_refuted.

(** ** C70 *)

(** Style objects only ever hold allowed values, in any history: TextStyle() and
    assignments raise exactly for other values and then change nothing. *)
Theorem C70_styles_valid : forall named t w l s, history named t w ->
  (forall n s, In (n, s) named -> valid_style s) ->
  nth_error (w_styles w) l = Some s -> valid_style s.
Proof.
  intros named t w l s Hh Hv Hs. apply nth_error_In in Hs. revert s Hs.
  induction Hh as [|t w a w' r H IH E].
  - intros s Hs. cbn in Hs. apply in_map_iff in Hs. destruct Hs as [[n s'] [<- Hs]].
    eapply Hv; eauto.
  - intros s Hs. assert (W := history_wf _ _ _ H). apply act_did in E; auto.
    eapply did_valid; eauto.
Qed.
Print Assumptions C70_styles_valid.
Theorem C70_constructor : forall args, (valid_style args -> make_style args = Ok args) /\
  (~ valid_style args -> exists e, make_style args = Err e).
Proof.
  intros args. split; intros H.
  - apply make_style_ok. auto.
  - destruct (make_style args) as [s|e] eqn:E; eauto. apply make_style_ok in E. tauto.
Qed.
Print Assumptions C70_constructor.
Theorem C70_assignment : forall named t w l x v w' r, history named t w -> is_object w l ->
  act w (AAssign l x v) = (w', r) ->
  match r with
  | Ok _ => allowed x v /\ exists s s', nth_error (w_styles w) l = Some s /\
      nth_error (w_styles w') l = Some s' /\ get s' x = v /\
      forall y, y <> x -> get s' y = get s y
  | Err _ => ~ allowed x v /\ w' = w
  end.
Proof.
  intros named t w l x v w' r Hh Hl E. assert (W := history_wf _ _ _ Hh). destruct r as [k|e].
  - apply act_did in E; auto. cases E.
    split; auto. exists (style_at w k). eexists. split; [now apply nth_error_nth_style|].
      cbn [w_styles]. split; [now apply nth_error_replace_same|]. split.
      * rewrite get_put. destruct x; reflexivity.
      * intros y Hy. rewrite get_put. destruct x, y; congruence.
  - unfold act in E. apply Nat.ltb_lt in Hl. rewrite Hl in E.
    destruct (set_attr (style_at w l) x v) as [s|e'] eqn:S; cbn in E; [discriminate|].
    split; [|congruence]. intros A.
    assert (set_attr (style_at w l) x v = Ok (put (style_at w l) x v)); [|congruence].
    apply set_attr_ok. auto.
Qed.
Print Assumptions C70_assignment.

Example ex_C70 : valid_style big_bold /\ is_ok (make_style big_bold) = true /\
  is_ok (set_attr big_bold Align (PStr (pys "center"))) = false /\
  is_ok (set_attr big_bold Align (PStr (pys "middle"))) = true.
Proof.
  split; [|repeat split; vm_compute; reflexivity].
  intros []; cbn; unfold is_string, is_number; eauto.
Qed.
