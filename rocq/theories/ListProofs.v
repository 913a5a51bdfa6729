From Coq Require Import String List ZArith NArith QArith Bool Lia Arith.
From Verif Require Import Py PyFacts ShowModel ShowSpec ShowProofs LayoutModel LayoutSpec LayoutProofs LayoutProofs2 LayoutProps SlideModel SlideSpec SlideProofs ListModel ListSpec.
Import ListNotations.
Local Open Scope Z_scope.

(** ** Numbers *)

Lemma bump_app : forall l n, bump (l ++ [n]) = l ++ [n + 1].
Proof.
  induction l as [|x l IH]; intro n; [reflexivity|]. cbn [app].
  change (bump (x :: l ++ [n])) with (match l ++ [n] with [] => [x + 1] | _ => x :: bump (l ++ [n]) end).
  rewrite IH. destruct (l ++ [n]) eqn:E; [now destruct l|reflexivity].
Qed.
Lemma nth_set_nth : forall A n m (a : A) l, nth_error (set_nth n a l) m =
  if Nat.eqb n m then match nth_error l m with Some _ => Some a | None => None end else nth_error l m.
Proof.
  induction n as [|n IH]; intros [|m] a [|x l]; try reflexivity.
  - simpl. now destruct (Nat.eqb n m).
  - simpl. now rewrite IH.
Qed.
Lemma set_nth_length : forall A n (a : A) l, List.length (set_nth n a l) = List.length l.
Proof. induction n as [|n IH]; intros a [|x l]; simpl; auto. Qed.

Section Measure.
Variable measure : str -> Q * Q.
Notation act := (act measure).
Notation ran := (ran measure).

(** What the slide calls of a list operation do to the slide: only calls. *)
Lemma perform_all_reachable : forall cs s s' r, perform_all s cs = (s', r) -> reachable s s'.
Proof.
  induction cs as [|c cs IH]; intros s s' r H; cbn [perform_all] in H.
  - injection H as <- _. constructor.
  - destruct (perform s c) as [s1 [i|e]] eqn:E.
    + assert (R : reachable s s1) by (econstructor; [constructor|exact E]).
      specialize (IH _ _ _ H). clear -R IH. induction IH; [exact R|]. econstructor; eauto.
    + injection H as <- _. econstructor; [constructor|exact E].
Qed.
Lemma reachable_trans : forall a b c, reachable a b -> reachable b c -> reachable a c.
Proof. intros a b c H K. induction K; [exact H|econstructor; eauto]. Qed.
Lemma reachable_one : forall s c s' r, perform s c = (s', r) -> reachable s s'.
Proof. intros. econstructor; [constructor|eauto]. Qed.

Lemma box_with_spec : forall s p named d s' r, box_with s p named d = (s', r) ->
  ls_lists s' = ls_lists s /\ ls_shown s' = ls_shown s /\ reachable (ls_slide s) (ls_slide s') /\
  (forall id, r = Ok id -> exists a, call_args named d = Ok a /\
     box_call (ls_slide s) p a = (ls_slide s', Ok id)).
Proof.
  intros s p named d s' r H. unfold box_with in H. destruct (call_args named d) as [a|e].
  - destruct (box_call (ls_slide s) p a) as [x r'] eqn:E. injection H as <- <-.
    repeat split; [apply (reachable_one _ (CBox p a) _ r' E)|]. intros id ->. eauto.
  - injection H as <- <-. repeat split; [constructor|discriminate].
Qed.
Lemma create_box_spec : forall s b t args s' r, create_box s b t args = (s', r) ->
  ls_lists s' = ls_lists s /\ ls_shown s' = ls_shown s /\ reachable (ls_slide s) (ls_slide s') /\
  (forall id, r = Ok id -> exists a,
     call_args [Kx (AStr (pys "[0%]"%string)); Kp_left (Some t)] (update (l_args b) args) = Ok a /\
     box_call (ls_slide s) (l_parent b) a = (ls_slide s', Ok id)).
Proof. intros. now apply box_with_spec in H. Qed.

(** The outcome of item(). *)
Lemma item_spec : forall s n lab p args s' r b0, item measure s n lab p args = (s', r) ->
  nth_error (ls_lists s) n = Some b0 ->
  let b := set_level b0 (bump (l_level b0)) in
  reachable (ls_slide s) (ls_slide s') /\
  (exists v, ls_lists s' = set_nth n (set_level b v) (ls_lists s) /\
     (reads_opt lab -> reads_opt (l_label b0) -> v = l_level b)) /\
  (exists k, ls_shown s' = ls_shown s ++ k /\ (k = [] \/ k = [(n, l_level b)])) /\
  (forall id, r = Ok id ->
     (reads_opt lab -> (lab <> None \/ l_label b0 <> None) -> ls_shown s' = ls_shown s ++ [(n, l_level b)]) /\
     exists a x1 ib a2 x2 , call_args [Kx (AStr (pys "[0%]"%string)); Kp_left (Some (l_total b0 + 0)%Q)]
                      (update (l_args b0) (update args [Khorizontal true])) = Ok a /\
       box_call (ls_slide s) (l_parent b0) a = (x1, Ok ib) /\ reachable x1 x2 /\
       box_call x2 ib a2 = (ls_slide s', Ok id)).
Proof.
  intros s n lab p args s' r b0 H N b. unfold item in H. rewrite N in H. cbv zeta in H. fold b in H.
  set (s0 := mkState (ls_slide s) (set_nth n b (ls_lists s)) (ls_shown s)) in H.
  assert (B : forall v, set_level b v = mkBuilder (l_parent b0) (l_label b0) (l_indent b0) (l_padding b0) (l_args b0) v (l_total b0))
    by reflexivity.
  assert (SB : set_level b (l_level b) = b) by reflexivity.
  destruct (create_box s0 b (l_total b + 0) (update args [Khorizontal true])) as [s1 r1] eqn:E1.
  apply create_box_spec in E1 as (L1 & W1 & R1 & K1). cbn [s0 ls_lists ls_shown ls_slide] in L1, W1, R1, K1.
  assert (base : exists v, ls_lists s1 = set_nth n (set_level b v) (ls_lists s) /\
                 (reads_opt lab -> reads_opt (l_label b0) -> v = l_level b))
    by (exists (l_level b); rewrite L1, SB; auto).
  destruct r1 as [ib|e].
  2: { injection H as <- <-. split; [exact R1|]. split; [exact base|].
       split; [exists []; rewrite app_nil_r; auto|discriminate]. }
  destruct (K1 ib eq_refl) as (a & A1 & A2). clear K1.
  set (pad := match p with Some p => p | None => l_padding b end) in H.
  assert (FIN : forall s2, reachable (ls_slide s1) (ls_slide s2) -> 
    box_with s2 ib [Kp_left (Some pad); Kwidth (AStr (pys "fill"%string))] [] = (s', r) ->
    ls_lists s' = ls_lists s2 /\ ls_shown s' = ls_shown s2 /\ reachable (ls_slide s) (ls_slide s') /\
    (forall id, r = Ok id -> exists a x1 ib a2 x2 , call_args [Kx (AStr (pys "[0%]"%string)); Kp_left (Some (l_total b0 + 0)%Q)]
                      (update (l_args b0) (update args [Khorizontal true])) = Ok a /\
       box_call (ls_slide s) (l_parent b0) a = (x1, Ok ib) /\ reachable x1 x2 /\
       box_call x2 ib a2 = (ls_slide s', Ok id))).
  { intros s2 R2 E. apply box_with_spec in E as (L2 & W2 & R3 & K2). split; [exact L2|]. split; [exact W2|].
    split; [eapply reachable_trans; [exact R1|]; eapply reachable_trans; eauto|].
    intros id ->. destruct (K2 id eq_refl) as (a2 & _ & A3).
    exists a, (ls_slide s1), ib, a2, (ls_slide s2). auto. }
  destruct (match lab with Some l => Some l | None => l_label b end) as [l|] eqn:EL.
  - destruct (box_with s1 ib [Ky (AStr (pys "[0%]"%string))] []) as [s2 r2] eqn:E2.
    apply box_with_spec in E2 as (L2 & W2 & R2 & _).
    destruct r2 as [lb|e].
    2: { injection H as <- <-. split; [eapply reachable_trans; eauto|]. rewrite L2, W2, W1.
         split; [exact base|]. split; [exists []; rewrite app_nil_r; auto|discriminate]. }
    destruct l as [t|f|tr].
    + destruct (measure t) as [w q].
      destruct (item_call (ls_slide s2) lb (TextItem w q false)) as [x r3] eqn:E3.
      assert (R3 : reachable (ls_slide s1) x).
      { eapply reachable_trans; [exact R2|]. apply (reachable_one _ (CItem lb (TextItem w q false)) _ r3 E3). }
      destruct r3 as [i|e].
      * apply FIN in H as (L3 & W3 & R4 & K4); [|exact R3]. cbn [ls_lists ls_shown] in L3, W3.
        split; [exact R4|]. split; [rewrite L3, L2; exact base|]. split.
        -- exists [(n, l_level b)]. rewrite W3, W2, W1. auto.
        -- intros id Hr. split; [|exact (K4 id Hr)]. intros _ _. now rewrite W3, W2, W1.
      * injection H as <- <-. cbn [ls_slide ls_lists ls_shown].
        split; [eapply reachable_trans; eauto|]. split; [rewrite L2; exact base|]. split; [|discriminate].
        exists [(n, l_level b)]. rewrite W2, W1. auto.
    + destruct (f (ls_slide s2) lb (l_level b)) as [cs v] eqn:EF.
      destruct (perform_all (ls_slide s2) cs) as [x r3] eqn:E3.
      assert (R3 : reachable (ls_slide s1) x).
      { eapply reachable_trans; [exact R2|]. eapply perform_all_reachable; eauto. }
      assert (V : exists v', set_nth n (set_level b v) (ls_lists s2) = set_nth n (set_level b v') (ls_lists s) /\
                  (reads_opt lab -> reads_opt (l_label b0) -> v' = l_level b)).
      { exists v. split.
        - rewrite L2, L1. clear. revert n. induction (ls_lists s) as [|y l IH]; intros [|n]; simpl; auto.
          now rewrite IH.
        - intros Q1 Q2. assert (RD : reads (LFun f)).
          { destruct lab as [l|]; [injection EL as ->; exact Q1|]. cbn [b set_level l_label] in EL.
            rewrite EL in Q2. exact Q2. }
          specialize (RD (ls_slide s2) lb (l_level b)). now rewrite EF in RD. }
      destruct r3 as [i|e].
      * apply FIN in H as (L3 & W3 & R4 & K4); [|exact R3]. cbn [ls_lists ls_shown] in L3, W3.
        split; [exact R4|]. split; [rewrite L3; exact V|]. split.
        -- exists [(n, l_level b)]. rewrite W3, W2, W1. auto.
        -- intros id Hr. split; [|exact (K4 id Hr)]. intros _ _. now rewrite W3, W2, W1.
      * injection H as <- <-. cbn [ls_slide ls_lists ls_shown].
        split; [eapply reachable_trans; eauto|]. split; [exact V|]. split; [|discriminate].
        exists [(n, l_level b)]. rewrite W2, W1. auto.
    + injection H as <- <-. split; [eapply reachable_trans; eauto|]. rewrite L2, W2, W1.
      split; [exact base|]. split; [exists []; rewrite app_nil_r; auto|discriminate].
  - apply FIN in H as (L3 & W3 & R4 & K4); [|constructor].
    split; [exact R4|]. split; [rewrite L3; exact base|]. split.
    + exists []. rewrite W3, W1, app_nil_r. auto.
    + intros id Hr. split; [|exact (K4 id Hr)]. change (l_label b) with (l_label b0) in EL. intros _ [Q|Q]; destruct lab; congruence.
Qed.

(** The outcome of the other operations. *)
Lemma sublist_spec : forall s n d st i lab lv args s' r b, sublist s n d st i lab lv args = (s', r) ->
  nth_error (ls_lists s) n = Some b ->
  reachable (ls_slide s) (ls_slide s') /\ ls_shown s' = ls_shown s /\
  match r with
  | Err _ => ls_lists s' = ls_lists s
  | Ok id => id = List.length (ls_lists s) /\ 1 <= given st 1 /\ exists box a,
      call_args [Kx (AStr (pys "[0%]"%string)); Kp_left (Some (l_total b + given i (l_indent b))%Q)]
        (update (l_args b) args) = Ok a /\
      box_call (ls_slide s) (l_parent b) a = (ls_slide s', Ok box) /\
      ls_lists s' = ls_lists s ++ [new_builder box (label_or lab d) (given i (l_indent b)) (l_padding b)
        (Some (given lv (l_level b))) (given st 1) (l_total b + given i (l_indent b))%Q (update (l_args b) args)]
  end.
Proof.
  intros s n d st i lab lv args s' r b H N. unfold sublist in H. rewrite N in H. cbv zeta in H.
  change (match st with Some v => v | None => 1 end) with (given st 1) in H.
  change (match i with Some i => i | None => l_indent b end) with (given i (l_indent b)) in H.
  change (match lv with Some l => l | None => l_level b end) with (given lv (l_level b)) in H.
  destruct (given st 1 <? 1) eqn:E.
  - injection H as <- <-. repeat split. constructor.
  - apply Z.ltb_ge in E.
    destruct (create_box s b _ args) as [s1 r1] eqn:E1.
    apply create_box_spec in E1 as (L1 & W1 & R1 & K1).
    destruct r1 as [box|e].
    + injection H as <- <-. cbn [ls_slide ls_lists ls_shown]. split; [exact R1|]. split; [exact W1|].
      rewrite L1. split; [reflexivity|]. split; [exact E|]. destruct (K1 box eq_refl) as (a & A1 & A2). eauto.
    + injection H as <- <-. auto.
Qed.
Lemma top_spec : forall s p d i pad lab st lv t args s' r, top_list s p d i pad lab st lv t args = (s', r) ->
  reachable (ls_slide s) (ls_slide s') /\ ls_shown s' = ls_shown s /\
  match r with
  | Err _ => ls_lists s' = ls_lists s
  | Ok id => id = List.length (ls_lists s) /\ exists box,
      ls_lists s' = ls_lists s ++ [new_builder box (label_or lab d) i pad lv st t args]
  end.
Proof.
  intros s p d i pad lab st lv t args s' r H. unfold top_list, sbox in H.
  destruct (box_with s p _ []) as [s1 r1] eqn:E1. apply box_with_spec in E1 as (L1 & W1 & R1 & _).
  destruct r1 as [box|e]; injection H as <- <-; cbn [ls_slide ls_lists ls_shown]; auto.
  split; [exact R1|]. split; [exact W1|]. rewrite L1. split; [reflexivity|]. eauto.
Qed.

(** ** Histories *)

Lemma act_reachable : forall s o s' r, act s o = (s', r) -> reachable (ls_slide s) (ls_slide s').
Proof.
  intros s [n lab p args|n d st i lab lv args|p d i pad lab st lv t args|c] s' r H; cbn [ListModel.act] in H.
  - destruct (nth_error (ls_lists s) n) as [b|] eqn:N.
    + now apply (item_spec _ _ _ _ _ _ _ _ H N).
    + unfold item in H. rewrite N in H. injection H as <- _. constructor.
  - destruct (nth_error (ls_lists s) n) as [b|] eqn:N.
    + now apply (sublist_spec _ _ _ _ _ _ _ _ _ _ _ H N).
    + unfold sublist in H. rewrite N in H. injection H as <- _. constructor.
  - now apply top_spec in H.
  - destruct (perform (ls_slide s) c) as [x r'] eqn:E. injection H as <- _. eapply reachable_one; eauto.
Qed.
Lemma ran_reachable : forall s h s', ran s h s' -> reachable (ls_slide s) (ls_slide s').
Proof.
  intros s h s' H. induction H; [constructor|]. eapply reachable_trans; [exact IHran|]. eapply act_reachable; eauto.
Qed.

(** What an operation does to an existing list: only the own counter changes. *)
Definition same_but_level (b b' : builder) : Prop := exists v, b' = set_level b v.
Lemma act_lists : forall s o s' r m b, act s o = (s', r) -> nth_error (ls_lists s) m = Some b ->
  exists b', nth_error (ls_lists s') m = Some b' /\ same_but_level b b' /\
    (match o with OItem n _ _ _ => n <> m | _ => True end -> b' = b) /\
    (match o with OItem n lab _ _ => n = m /\ reads_opt lab | _ => False end -> reads_opt (l_label b) ->
     l_level b' = bump (l_level b)).
Proof.
  intros s o s' r m b H M.
  assert (SB : forall x, same_but_level x x) by (intros x; exists (l_level x); now destruct x).
  assert (APP : forall l, ls_lists s' = ls_lists s ++ l -> nth_error (ls_lists s') m = Some b).
  { intros l ->. rewrite nth_error_app1; [exact M|]. apply nth_error_Some. congruence. }
  destruct o as [n lab p args|n d st i lab lv args|p d i pad lab st lv t args|c]; cbn [ListModel.act] in H.
  - destruct (nth_error (ls_lists s) n) as [b0|] eqn:N.
    + destruct (item_spec _ _ _ _ _ _ _ _ H N) as (_ & (v & -> & V) & _). rewrite nth_set_nth.
      destruct (Nat.eqb_spec n m) as [->|D].
      * rewrite M. assert (b0 = b) as -> by congruence. eexists. split; [reflexivity|].
        split; [exists v; reflexivity|]. split; [intros Q; now elim Q|]. intros [_ Q1] Q2. now rewrite (V Q1 Q2).
      * exists b. split; [exact M|]. split; [apply SB|]. split; [auto|]. intros [Q _]. contradiction.
    + unfold item in H. rewrite N in H. injection H as <- _. exists b. split; [exact M|]. split; [apply SB|].
      split; [auto|]. intros [-> _]. congruence.
  - exists b. split; [|split; [apply SB|split; [auto|tauto]]].
    destruct (nth_error (ls_lists s) n) as [b0|] eqn:N.
    + destruct (sublist_spec _ _ _ _ _ _ _ _ _ _ _ H N) as (_ & _ & Q).
      destruct r as [id|e]; [|now rewrite Q]. destruct Q as (_ & _ & box & a & _ & _ & Q). now apply APP in Q.
    + unfold sublist in H. rewrite N in H. now injection H as <- _.
  - exists b. split; [|split; [apply SB|split; [auto|tauto]]].
    apply top_spec in H as (_ & _ & Q). destruct r as [id|e]; [|now rewrite Q].
    destruct Q as (_ & box & Q). now apply APP in Q.
  - exists b. split; [|split; [apply SB|split; [auto|tauto]]].
    destruct (perform (ls_slide s) c) as [x r']. now injection H as <- _.
Qed.
(** The lists that are there after an operation. *)
Lemma act_new : forall s o s' r m b', act s o = (s', r) -> nth_error (ls_lists s') m = Some b' ->
  (exists b, nth_error (ls_lists s) m = Some b) \/
  (r = Ok m /\ m = List.length (ls_lists s) /\ ls_lists s' = ls_lists s ++ [b'] /\
   match o with OSub _ _ _ _ _ _ _ | OTop _ _ _ _ _ _ _ _ _ => True | _ => False end).
Proof.
  intros s o s' r m b' H M.
  destruct (nth_error (ls_lists s) m) as [b|] eqn:E; [eauto|right].
  assert (G : forall x, ls_lists s' = ls_lists s ++ [x] -> m = List.length (ls_lists s) /\ x = b').
  { intros x Q. rewrite Q in M. apply nth_error_None in E.
    assert (K : (m < List.length (ls_lists s ++ [x]))%nat) by (apply nth_error_Some; congruence).
    rewrite app_length in K. simpl in K. assert (m = List.length (ls_lists s)) as -> by lia.
    rewrite nth_error_app2, Nat.sub_diag in M by lia. split; [reflexivity|]. now injection M. }
  destruct o as [n lab p args|n d st i lab lv args|p d i pad lab st lv t args|c]; cbn [ListModel.act] in H.
  - exfalso. destruct (nth_error (ls_lists s) n) as [b0|] eqn:N.
    + destruct (item_spec _ _ _ _ _ _ _ _ H N) as (_ & (v & Q & V) & _). rewrite Q, nth_set_nth, E in M.
      now destruct (Nat.eqb n m).
    + unfold item in H. rewrite N in H. injection H as <- _. congruence.
  - destruct (nth_error (ls_lists s) n) as [b0|] eqn:N.
    + destruct (sublist_spec _ _ _ _ _ _ _ _ _ _ _ H N) as (_ & _ & Q).
      destruct r as [id|e]; [|exfalso; congruence]. destruct Q as (-> & _ & box & a & _ & _ & Q).
      destruct (G _ Q) as [-> <-]. auto.
    + exfalso. unfold sublist in H. rewrite N in H. injection H as <- _. congruence.
  - apply top_spec in H as (_ & _ & Q). destruct r as [id|e]; [|exfalso; congruence].
    destruct Q as (-> & box & Q). destruct (G _ Q) as [-> <-]. auto.
  - exfalso. destruct (perform (ls_slide s) c) as [x r']. injection H as <- _. cbn in M. congruence.
Qed.
End Measure.
