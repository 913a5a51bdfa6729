(** C62, C63, C84: the text of labels, counterexamples, examples. *)
From Coq Require Import String List ZArith NArith QArith Bool Lia Arith.
From Verif Require Import Py PyFacts ShowModel ShowSpec ShowProofs LayoutModel LayoutSpec SlideModel SlideSpec SlideProofs ListModel ListSpec ListProofs ListProps.
Import ListNotations.
Local Open Scope Z_scope.

(** ** The text of labels *)

Lemma digit_decimal : forall m, 0 <= m < 10 -> decimal (Z.to_N (48 + m)) m.
Proof. intros m H. exists 48%N. split; [now left|]. split; lia. Qed.
Lemma digits_spec : forall fuel n acc, 0 <= n < 2 ^ Z.of_nat fuel -> (0 < fuel)%nat ->
  exists s, digits fuel n acc = s ++ acc /\ numeral s n.
Proof.
  induction fuel as [|f IH]; intros n acc H F; [lia|]. cbn [digits]. cbv zeta.
  assert (M := Z.mod_pos_bound n 10 ltac:(lia)). assert (D := Z.div_mod n 10 ltac:(lia)).
  destruct (n / 10 =? 0) eqn:E.
  - apply Z.eqb_eq in E. exists [Z.to_N (48 + n mod 10)]. split; [reflexivity|].
    replace n with (n mod 10) at 2 by lia. constructor. now apply digit_decimal.
  - apply Z.eqb_neq in E. assert (0 <= n / 10) by (apply Z.div_pos; lia).
    assert (FP : (0 < f)%nat). { destruct f; [|lia]. change (2 ^ Z.of_nat 1) with 2 in H. lia. }
    rewrite Nat2Z.inj_succ, Z.pow_succ_r in H by lia.
    destruct (IH (n / 10) (Z.to_N (48 + n mod 10) :: acc)) as (s & -> & Hs); [lia|exact FP|].
    exists (s ++ [Z.to_N (48 + n mod 10)]). split; [now rewrite <- app_assoc|].
    replace n with (10 * (n / 10) + n mod 10) at 2 by lia. constructor; [exact Hs|]. now apply digit_decimal.
Qed.
Lemma int_of_digits_text : forall n, 0 <= n -> numeral (digits (S (Z.to_nat (Z.log2 n))) n []) n.
Proof.
  intros n H. destruct (digits_spec (S (Z.to_nat (Z.log2 n))) n []) as (s & -> & Hs); [|lia|now rewrite app_nil_r].
  rewrite Nat2Z.inj_succ, Z2Nat.id by apply Z.log2_nonneg.
  destruct (Z.eq_dec n 0) as [->|D]; [cbn; lia|]. assert (Q := Z.log2_spec n ltac:(lia)). lia.
Qed.
Lemma str_of_int_text : forall n, int_text n (str_of_int n).
Proof.
  intro n. unfold str_of_int. cbv zeta. destruct (n <? 0) eqn:E.
  - apply Z.ltb_lt in E. right. split; [exact E|]. eexists. split; [reflexivity|]. apply int_of_digits_text. lia.
  - apply Z.ltb_ge in E. left. split; [exact E|]. now apply int_of_digits_text.
Qed.

(** The default label of ordered lists shows every counter followed by a dot. *)
Theorem C62_arabic_text : forall v, v <> [] -> dotted v (arabic_text v).
Proof.
  intros v N. unfold arabic_text. induction v as [|n v IH]; [now elim N|]. cbn [map].
  destruct v as [|m v].
  - cbn [map join_with]. change (pys ".") with (pys "." ++ []). constructor; [apply str_of_int_text|constructor].
  - cbn [map] in *. change (join_with (pys ".") (str_of_int n :: str_of_int m :: map str_of_int v)) with
      (str_of_int n ++ pys "." ++ join_with (pys ".") (str_of_int m :: map str_of_int v)).
    rewrite <- !app_assoc. constructor; [apply str_of_int_text|]. apply IH. discriminate.
Qed.
Print Assumptions C62_arabic_text.

Lemma int_text_chars : forall n s, int_text n s -> s <> [] /\ ~ In 46%N s.
Proof.
  assert (G : forall s n, numeral s n -> s <> [] /\ ~ In 46%N s).
  { intros s n H. apply numeral_digits in H as (H1 & H2 & _). split; [exact H1|]. intro I.
    rewrite Forall_forall in H2. specialize (H2 _ I). vm_compute in H2. discriminate. }
  intros n s [[_ H]|(_ & s' & -> & H)]; [eauto|]. apply G in H as [H1 H2]. split; [discriminate|].
  intros [Q|Q]; [vm_compute in Q; discriminate|now apply H2].
Qed.
Lemma numeral_det : forall s n m, numeral s n -> numeral s m -> n = m.
Proof. intros s n m H K. apply numeral_digits in H as (_ & _ & <-). apply numeral_digits in K as (_ & _ & <-). reflexivity. Qed.
Lemma int_text_det : forall n m s, int_text n s -> int_text m s -> n = m.
Proof.
  assert (G : forall s n, numeral (pys "-" ++ s) n -> False).
  { intros s n H. apply numeral_digits in H as (_ & H & _). inversion H as [|c l Q]; subst. vm_compute in Q. discriminate. }
  intros n m s [[N H]|(N & s1 & E1 & H)] [[M K]|(M & s2 & E2 & K)]; subst.
  - eapply numeral_det; eauto.
  - now apply G in H.
  - now apply G in K.
  - apply app_inv_head in E2 as <-. assert (- n = - m) by (eapply numeral_det; eauto). lia.
Qed.
Lemma split_at : forall A (c : A) a b x y, ~ In c a -> ~ In c b -> a ++ c :: x = b ++ c :: y -> a = b /\ x = y.
Proof.
  induction a as [|u a IH]; intros [|w b] x y Ha Hb E; cbn in E.
  - injection E as ->. auto.
  - injection E as -> _. elim Hb. now left.
  - injection E as -> _. elim Ha. now left.
  - injection E as -> E. destruct (IH b x y) as [-> ->]; auto.
    + intro Q. apply Ha. now right.
    + intro Q. apply Hb. now right.
Qed.
Lemma dotted_det : forall v s, dotted v s -> forall w, dotted w s -> v = w.
Proof.
  intros v s H. induction H as [|n v a s Hn H IH]; intros w K.
  - remember [] as g eqn:G. destruct K as [|m w b t _ _]; [reflexivity|]. exfalso. now destruct b.
  - remember (a ++ pys "." ++ s) as g eqn:G. destruct K as [|m w b t Hm K].
    + exfalso. now destruct a.
    + change (pys ".") with [46%N] in G. cbn [app] in G.
      destruct (int_text_chars _ _ Hn) as [_ An]. destruct (int_text_chars _ _ Hm) as [_ Am].
      apply split_at in G as [-> ->]; auto. f_equal; [eapply int_text_det; eauto|auto].
Qed.
(** Different counters have different labels. *)
Theorem C62_distinct_labels : forall v w, arabic_text v = arabic_text w -> v = w.
Proof.
  intros v w E.
  assert (Z : forall u, arabic_text u = pys "." -> u = []).
  { intros [|n u] H; [reflexivity|]. exfalso. assert (D := C62_arabic_text (n :: u) ltac:(discriminate)). rewrite H in D.
    inversion D as [|m v' a s Hn H' Q1 Q2]; subst. destruct (int_text_chars _ _ Hn) as [Hn' _].
    destruct a as [|c a]; [now apply Hn'|]. injection Q2 as _ Q2. now destruct a. }
  destruct v as [|n v]; [symmetry; apply Z; now rewrite <- E|].
  destruct w as [|m w]; [apply Z; now rewrite E|].
  eapply dotted_det; [apply C62_arabic_text; discriminate|]. rewrite E. apply C62_arabic_text. discriminate.
Qed.
Print Assumptions C62_distinct_labels.

(** ** Examples *)

Definition meas (s : str) : Q * Q := (10%Q, 20%Q).
Fixpoint play (s : state) (ops : list op) : state * hist :=
  match ops with
  | [] => (s, [])
  | o :: ops' => let (s1, r) := act meas s o in let (s2, h) := play s1 ops' in (s2, (o, r) :: h)
  end.
Lemma play_ran : forall ops s0 h s, ran meas s0 h s -> ran meas s0 (h ++ snd (play s ops)) (fst (play s ops)).
Proof.
  induction ops as [|o ops IH]; intros s0 h s H; cbn [play].
  - cbn. now rewrite app_nil_r.
  - destruct (act meas s o) as [s1 r] eqn:A. assert (K := IH s0 (h ++ [(o, r)]) s1 (ran_step _ _ _ _ _ _ _ H A)).
    destruct (play s1 ops) as [s2 h2]. cbn [fst snd] in *. now rewrite <- app_assoc in K.
Qed.
Lemma played : forall ops s, ran meas s (snd (play s ops)) (fst (play s ops)).
Proof. intros ops s. exact (play_ran ops s [] s (ran_nil _ _)). Qed.
Definition slide0 : slide := match new_slide 800 600 with Ok s => s | Err _ => mkSlide (NItem 0 0) (Node (mkHead 0 None None ANone ANone (mkSize 0 None 0 None) (mkSize 0 None 0 None) 0 0 0 0 false []) []) 0 0 (mkStore (fun _ => None) (fun _ => mkText 0 0 1)) end.
Definition state0 : state := mkState slide0 [] [].
Lemma slide0_wf : wf slide0.
Proof. apply (new_slide_wf 800 600). reflexivity. Qed.
Lemma arabic_reads : reads (arabic meas).
Proof. intros s b v. reflexivity. Qed.

Definition ol (p : nat) : op := OTop p (arabic meas) 10 25 None 1 None 0 [].
Definition sub (n : nat) : op := OSub n (arabic meas) None None None None [].
Definition it (n : nat) : op := OItem n None None [].
Definition prog1 : list op := [ol 0; it 0; it 0; sub 0; it 1; it 0; it 1].
Example C62_ex : ls_shown (fst (play state0 prog1)) = [(0%nat, [1]); (0%nat, [2]); (1%nat, [2; 1]); (0%nat, [3]); (1%nat, [2; 2])] /\
  (forall o r, In (o, r) (snd (play state0 prog1)) -> reading o /\ proper_op o) /\
  forallb (fun x => is_ok (snd x)) (snd (play state0 prog1)) = true /\
  arabic_text [2; 10; -3] = pys "2.10.-3.".
Proof.
  split; [vm_compute; reflexivity|]. split; [|split; vm_compute; reflexivity].
  assert (M : map fst (snd (play state0 prog1)) = prog1) by (vm_compute; reflexivity).
  intros o r I. apply (in_map fst) in I. rewrite M in I. cbn in I.
  repeat (destruct I as [<-|I]; [split; [repeat split; reflexivity|constructor]|]). destruct I.
Qed.

(** A call of item() that raises uses a number: with an unknown keyword the first call makes
    no item, and the first item of the list has the number 2. *)
Definition prog2 : list op := [ol 0; OItem 0 None None [KOther (pys "colour")]; it 0].
Theorem C62_failed_item_refuted : exists s0 s n c id e,
  let o := OItem n None None [KOther (pys "colour")] in
  wf (ls_slide s0) /\ ls_lists s0 = [] /\
  ran meas s0 [(ol 0, Ok n); (o, Err e); (it n, Ok id)] s /\ reading (ol 0) /\
  ls_shown s = [(n, [c])] /\ c <> 1.
Proof.
  exists state0, (fst (play state0 prog2)). do 4 eexists. split; [exact slide0_wf|]. split; [reflexivity|].
  split.
  - assert (P := played prog2 state0).
    match type of P with ran _ _ ?h _ => assert (E : h = [(ol 0, Ok 0%nat);
      (OItem 0 None None [KOther (pys "colour")], Err EType); (it 0, Ok 5%nat)]) by (vm_compute; reflexivity) end.
    rewrite E in P. exact P.
  - split; [split; [exact arabic_reads|exact I]|]. split; [vm_compute; reflexivity|]. discriminate.
Qed.
Print Assumptions C62_failed_item_refuted.

(** A label function gets the list of counters itself; if it changes it, later numbers
    change. *)
Definition bad_label : label := LFun (fun _ box v => ([], v ++ [7])).
Definition prog3 : list op := [ol 0; OItem 0 (Some bad_label) None []; it 0].
Theorem C62_label_refuted : exists s0 s n id id' c,
  wf (ls_slide s0) /\ ls_lists s0 = [] /\
  ran meas s0 [(ol 0, Ok n); (OItem n (Some bad_label) None [], Ok id); (it n, Ok id')] s /\
  ls_shown s = [(n, [1]); (n, c)] /\ c <> [2].
Proof.
  exists state0, (fst (play state0 prog3)). do 4 eexists. split; [exact slide0_wf|]. split; [reflexivity|].
  split.
  - assert (P := played prog3 state0).
    match type of P with ran _ _ ?h _ => assert (E : h = [(ol 0, Ok 0%nat);
      (OItem 0 (Some bad_label) None [], Ok 4%nat); (it 0, Ok 8%nat)]) by (vm_compute; reflexivity) end.
    rewrite E in P. exact P.
  - split; [vm_compute; reflexivity|]. discriminate.
Qed.
Print Assumptions C62_label_refuted.

(** The items of a sublist with the default indentation of 10 are 20 to the right of the
    items around it, not 10: the indentation is given to the box of the sublist and again to
    every item in it. *)
Definition prog4 : list op := [ol 0; it 0; sub 0; it 1].
Theorem C63_indent_refuted : exists s0 s c1 c2 ib1 ib2 r st T R1 R2,
  wf (ls_slide s0) /\ ls_lists s0 = [] /\
  ran meas s0 [(ol 0, Ok 0%nat); (it 0, Ok c1); (sub 0, Ok 1%nat); (it 1, Ok c2)] s /\
  nested [(ol 0, Ok 0%nat); (it 0, Ok c1); (sub 0, Ok 1%nat); (it 1, Ok c2)] 1 0 0 [10%Q] 10 /\
  set_rect (sl_layout (ls_slide s)) r st = Ok T /\
  In (ib1, c1) (layout_edges (sl_layout (ls_slide s))) /\ st_rect T ib1 = Some R1 /\
  In (ib2, c2) (layout_edges (sl_layout (ls_slide s))) /\ st_rect T ib2 = Some R2 /\
  ~ (rx R2 == rx R1 + 10)%Q /\ (rx R2 == rx R1 + 20)%Q.
Proof.
  exists state0, (fst (play state0 prog4)), 5%nat, 10%nat, 2%nat, 7%nat, (mkRect 0 0 800 600), (sl_store slide0).
  destruct (set_rect (sl_layout (ls_slide (fst (play state0 prog4)))) (mkRect 0 0 800 600) (sl_store slide0)) as [T|e] eqn:E.
  2: { exfalso. vm_compute in E. discriminate. }
  exists T.
  assert (G : exists R1 R2, st_rect T 2%nat = Some R1 /\ st_rect T 7%nat = Some R2 /\
              Qeq_bool (rx R2) (rx R1 + 20) = true /\ Qeq_bool (rx R2) (rx R1 + 10) = false).
  { assert (Q : match set_rect (sl_layout (ls_slide (fst (play state0 prog4)))) (mkRect 0 0 800 600) (sl_store slide0) with
            | Ok T => match st_rect T 2%nat, st_rect T 7%nat with
                      | Some R1, Some R2 => Qeq_bool (rx R2) (rx R1 + 20) && negb (Qeq_bool (rx R2) (rx R1 + 10))
                      | _, _ => false end
            | Err _ => false end = true) by (vm_compute; reflexivity).
    rewrite E in Q. destruct (st_rect T 2%nat) as [R1|]; [|discriminate]. destruct (st_rect T 7%nat) as [R2|]; [|discriminate].
    apply andb_true_iff in Q as [Q1 Q2]. apply negb_true_iff in Q2. exists R1, R2. auto. }
  destruct G as (R1 & R2 & E1 & E2 & Q1 & Q2). exists R1, R2.
  split; [exact slide0_wf|]. split; [reflexivity|]. split.
  - assert (P := played prog4 state0).
    match type of P with ran _ _ ?h _ => assert (EH : h = [(ol 0, Ok 0%nat); (it 0, Ok 5%nat);
      (sub 0, Ok 1%nat); (it 1, Ok 10%nat)]) by (vm_compute; reflexivity) end.
    rewrite EH in P. exact P.
  - split.
    { change [10%Q] with ([] ++ [given (@None Q) 10%Q]).
      apply (ne_sub [(ol 0, Ok 0%nat); (it 0, Ok 5%nat)] 0 (arabic meas) None None None None [] 1 [(it 1, Ok 10%nat)] 0 0 [] 10).
      apply (ne_top []). }
    split; [reflexivity|]. split; [vm_compute; tauto|]. split; [exact E1|]. split; [vm_compute; tauto|]. split; [exact E2|].
    split; [|now apply Qeq_bool_iff]. intro Q. apply Qeq_bool_iff in Q. congruence.
Qed.
Print Assumptions C63_indent_refuted.

(** Items of a list with show="next+", a sublist, and an item with an own argument: the
    fragments in which they are seen. *)
Definition prog5 : list op :=
  [OTop 0 bullet 10 25 None 1 None 0 [Kshow (ShowStr (pys "next+"))]; it 0; it 0; sub 0;
   OItem 1 None None [Kshow (ShowInt 2)]].
Example C84_ex : forallb (fun x => is_ok (snd x)) (snd (play state0 prog5)) = true /\
  map (fun b => map (is_visible (b_show b)) [1; 2; 3; 4; 5]) (boxes (sl_box (ls_slide (fst (play state0 prog5))))) =
  [[true; true; true; true; true];       (* the slide *)
   [true; true; true; true; true];       (* the list *)
   [false; true; true; true; true];      (* the first item: from fragment 2 *)
   [true; true; true; true; true]; [true; true; true; true; true];
   [false; false; true; true; true];     (* the second item *)
   [true; true; true; true; true]; [true; true; true; true; true];
   [false; false; false; true; true];    (* the sublist *)
   [false; true; false; false; false];   (* its item: only in fragment 2, so never seen *)
   [true; true; true; true; true]; [true; true; true; true; true]] /\
  shows (snd (play state0 prog5)) 1 [None; Some (ShowStr (pys "next+"))].
Proof.
  split; [vm_compute; reflexivity|]. split; [vm_compute; reflexivity|].
  assert (E : snd (play state0 prog5) = [(nth 0 prog5 (it 0), Ok 0%nat); (it 0, Ok 5%nat); (it 0, Ok 9%nat); (sub 0, Ok 1%nat); (nth 4 prog5 (it 0), Ok 14%nat)])
    by (vm_compute; reflexivity).
  rewrite E. apply (sh_sub [(nth 0 prog5 (it 0), Ok 0%nat); (it 0, Ok 5%nat); (it 0, Ok 9%nat)] 0 (arabic meas) None None None None [] 1
    [(nth 4 prog5 (it 0), Ok 14%nat)]).
  apply (sh_top [] 0 bullet 10 25 None 1 None 0 [Kshow (ShowStr (pys "next+"))] 0 _).
Qed.
