(** Concurrent requests to the file cache: C52. *)
From Coq Require Import List Arith Bool Lia.
From Verif Require Import Py ConcModel.
Import ListNotations.

(** ** Specification *)
(** How often the constructor was called for [f]. *)
Fixpoint starts (f : key) (l : list cevent) : nat :=
  match l with
  | [] => 0
  | CStart _ g :: l' => (if Nat.eqb g f then 1 else 0) + starts f l'
  | _ :: l' => starts f l'
  end.
(** Every entry that was returned was in the cache at the beginning or built before. *)
Definition complete (known : list key) (log : list cevent) : Prop :=
  forall later i f earlier, log = later ++ CReturn i f :: earlier ->
    In f known \/ exists j, In (CEnd j f) earlier.
(** No two threads ask for the same entry. *)
Definition disjoint (reqs : list (list key)) : Prop :=
  forall i j ki kj f, nth_error reqs i = Some ki -> nth_error reqs j = Some kj ->
    In f ki -> In f kj -> i = j.
Definition done (p : pc) : Prop := p = Ready [].

(** ** Lists *)
Lemma kmem_in : forall f l, kmem f l = true <-> In f l.
Proof.
  intros f l. unfold kmem. rewrite existsb_exists. split.
  - intros [x [H1 H2]]. apply Nat.eqb_eq in H2. now subst.
  - intro H. exists f. split; auto. apply Nat.eqb_refl.
Qed.
Lemma kmem_notin : forall f l, kmem f l = false <-> ~ In f l.
Proof. intros f l. rewrite <- kmem_in. destruct (kmem f l); split; congruence. Qed.
Lemma set_pc_nth : forall ts i p j, nth_error (set_pc ts i p) j =
  if Nat.eqb i j then (match nth_error ts i with Some _ => Some p | None => None end) else nth_error ts j.
Proof.
  induction ts as [|t ts IH]; intros [|i] p [|j]; cbn [set_pc nth_error Nat.eqb]; auto.
  destruct (Nat.eqb i j); reflexivity.
Qed.
Lemma set_pc_length : forall ts i p, length (set_pc ts i p) = length ts.
Proof. induction ts as [|t ts IH]; intros [|i] p; cbn; auto. Qed.
Lemma pget_del : forall p f g, pget (pdel p f) g = if Nat.eqb f g then None else pget p g.
Proof.
  unfold pdel. induction p as [|[a c] p IH]; intros f g; cbn [filter pget fst].
  - destruct (Nat.eqb f g); reflexivity.
  - destruct (Nat.eqb a f) eqn:E; cbn [negb pget].
    + apply Nat.eqb_eq in E. subst a. rewrite IH. destruct (Nat.eqb f g); reflexivity.
    + rewrite IH. destruct (Nat.eqb a g) eqn:E'; auto. apply Nat.eqb_eq in E'. subst a.
      rewrite Nat.eqb_sym, E. reflexivity.
Qed.
Lemma pget_set : forall p f c g, pget (pset p f c) g = if Nat.eqb f g then Some c else pget p g.
Proof. intros. unfold pset. cbn [pget]. rewrite pget_del. destruct (Nat.eqb f g); reflexivity. Qed.

(** ** Every interleaving, any requests, failing constructors: a returned entry is complete *)
Lemma complete_cons : forall K e l, complete K l ->
  (forall i f, e = CReturn i f -> In f K \/ exists j, In (CEnd j f) l) -> complete K (e :: l).
Proof.
  intros K e l H He later i f earlier E. destruct later as [|x later]; cbn in E; injection E as -> E.
  - subst l. now apply (He i f).
  - now apply (H later i f earlier).
Qed.
Definition known_inv (K : list key) (s : cstate) : Prop :=
  complete K (cs_log s) /\ forall f, In f (cs_known s) -> In f K \/ exists j, In (CEnd j f) (cs_log s).
Lemma known_step : forall K s i s', known_inv K s -> cstep s i = Some s' -> known_inv K s'.
Proof.
  intros K s i s' [H1 H2] E. unfold cstep in E.
  destruct (nth_error (cs_threads s) i) as [[[|f ks]|f ks|f c ks|f c ks|f ks|e]|]; try discriminate.
  - destruct (pget (cs_progress s) f); [injection E as <-; split; auto|].
    destruct (kmem f (cs_known s)) eqn:M; injection E as <-; [|split; auto].
    apply kmem_in in M. split; cbn [cs_log cs_known].
    + apply complete_cons; auto. intros j g X. injection X as <- <-. auto.
    + intros g Hg. destruct (H2 g Hg) as [X|[j X]]; auto. right. exists j. now right.
  - injection E as <-. split; cbn [cs_log cs_known].
    + apply complete_cons; auto. discriminate.
    + intros g Hg. destruct (H2 g Hg) as [X|[j X]]; auto. right. exists j. now right.
  - destruct (pget (cs_progress s) f); injection E as <-; split; cbn [cs_log cs_known].
    + apply complete_cons; [apply complete_cons; auto; discriminate|].
      intros j g X. injection X as <- <-. right. exists i. now left.
    + intros g [<-|Hg]; [right; exists i; right; now left|].
      destruct (H2 g Hg) as [X|[j X]]; auto. right. exists j. right. now right.
    + apply complete_cons; auto. discriminate.
    + intros g [<-|Hg]; [right; exists i; now left|].
      destruct (H2 g Hg) as [X|[j X]]; auto. right. exists j. now right.
  - destruct (kmem f (cs_known s)) eqn:M; injection E as <-; [|split; auto].
    apply kmem_in in M. split; cbn [cs_log cs_known].
    + apply complete_cons; auto. intros j g X. injection X as <- <-. auto.
    + intros g Hg. destruct (H2 g Hg) as [X|[j X]]; auto. right. exists j. now right.
Qed.
Lemma known_fail : forall K s i s', known_inv K s -> cfail s i = Some s' -> known_inv K s'.
Proof.
  intros K s i s' H E. unfold cfail in E.
  destruct (nth_error (cs_threads s) i) as [[[|f ks]|f ks|f c ks|f c ks|f ks|e]|]; try discriminate.
  injection E as <-. exact H.
Qed.
Theorem C52_complete_partial : forall known reqs sch s,
  crun (cinit known reqs) sch = Some s -> complete known (cs_log s).
Proof.
  intros known reqs sch s H.
  assert (I : known_inv known (cinit known reqs)).
  { split; [|auto]. intros later i f earlier E. destruct later; discriminate. }
  revert H I. generalize (cinit known reqs). induction sch as [|[i b] sch IH]; intros s0 H I.
  - injection H as <-. apply I.
  - cbn [crun] in H. destruct b.
    + destruct (cfail s0 i) eqn:E; [|discriminate]. apply (IH _ H). now apply (known_fail _ _ i _ I).
    + destruct (cstep s0 i) eqn:E; [|discriminate]. apply (IH _ H). now apply (known_step _ _ i _ I).
Qed.
Print Assumptions C52_complete_partial.

(** ** Every execution is finite *)
Definition weight (p : pc) : nat :=
  match p with
  | Ready ks => 3 * length ks
  | Mark _ ks => 3 * length ks + 2
  | Build _ _ ks => 3 * length ks + 1
  | Wait _ _ ks => 3 * length ks + 2
  | Woken _ ks => 3 * length ks + 1
  | Stopped _ => 0
  end.
Definition total (ts : list pc) : nat := list_sum (map weight ts).
Lemma total_set : forall ts i p q, nth_error ts i = Some p -> weight q < weight p -> total (set_pc ts i q) < total ts.
Proof.
  unfold total. induction ts as [|t ts IH]; intros [|i] p q H W; cbn [nth_error set_pc map list_sum fold_right] in *; try discriminate.
  - injection H as ->. fold (list_sum (map weight ts)). lia.
  - specialize (IH i p q H W). unfold list_sum in *. lia.
Qed.
Lemma total_wake : forall ts c, total (map (wake c) ts) <= total ts.
Proof.
  unfold total. induction ts as [|t ts IH]; intro c; cbn [map list_sum fold_right]; auto.
  specialize (IH c). unfold list_sum in *.
  assert (W : weight (wake c t) <= weight t).
  { destruct t as [ks|f ks|f c0 ks|f c0 ks|f ks|e]; cbn [wake weight]; auto. destruct (Nat.eqb c c0); cbn [weight]; lia. }
  lia.
Qed.
Lemma step_total : forall s i s' b, (if b : bool then cfail s i else cstep s i) = Some s' ->
  total (cs_threads s') < total (cs_threads s).
Proof.
  intros s i s' b E. destruct b.
  - unfold cfail in E. destruct (nth_error (cs_threads s) i) as [[[|f ks]|f ks|f c ks|f c ks|f ks|e]|] eqn:N; try discriminate.
    injection E as <-. cbn [cs_threads]. apply (total_set _ _ _ _ N). cbn. lia.
  - unfold cstep in E. destruct (nth_error (cs_threads s) i) as [[[|f ks]|f ks|f c ks|f c ks|f ks|e]|] eqn:N; try discriminate.
    + destruct (pget (cs_progress s) f); [|destruct (kmem f (cs_known s))]; injection E as <-; cbn [cs_threads];
        apply (total_set _ _ _ _ N); cbn [weight length]; lia.
    + injection E as <-. apply (total_set _ _ _ _ N). cbn [weight]. lia.
    + destruct (pget (cs_progress s) f); injection E as <-; cbn [cs_threads].
      * eapply Nat.le_lt_trans; [apply total_wake|]. apply (total_set _ _ _ _ N). cbn [weight]. lia.
      * apply (total_set _ _ _ _ N). cbn [weight]. lia.
    + destruct (kmem f (cs_known s)); injection E as <-; apply (total_set _ _ _ _ N); cbn [weight]; lia.
Qed.
Lemma run_total : forall sch s s', crun s sch = Some s' -> length sch + total (cs_threads s') <= total (cs_threads s).
Proof.
  induction sch as [|[i b] sch IH]; intros s s' H.
  - injection H as <-. cbn. lia.
  - cbn [crun] in H. destruct (if b then cfail s i else cstep s i) as [s1|] eqn:E; [|discriminate].
    specialize (IH s1 s' H). assert (W := step_total s i s1 b E). cbn [length]. lia.
Qed.
(** No execution has more than three steps per request. *)
Theorem C52_finite_partial : forall known reqs sch s, crun (cinit known reqs) sch = Some s ->
  length sch <= 3 * length (concat reqs).
Proof.
  intros known reqs sch s H. apply run_total in H. unfold cinit in H. cbn [cs_threads] in H.
  assert (E : total (map Ready reqs) = 3 * length (concat reqs)).
  { clear. unfold total. induction reqs as [|r reqs IH]; [reflexivity|]. cbn [map list_sum fold_right concat weight].
    rewrite app_length. unfold list_sum in IH. lia. }
  lia.
Qed.
Print Assumptions C52_finite_partial.

(** ** Threads with different entries do not disturb each other *)

Definition keys_of (p : pc) : list key :=
  match p with
  | Ready ks => ks
  | Mark f ks | Build f _ ks | Wait f _ ks | Woken f ks => f :: ks
  | Stopped _ => []
  end.
Record sep_inv (K : list key) (reqs : list (list key)) (s : cstate) : Prop := {
  si_keys : forall i p, nth_error (cs_threads s) i = Some p ->
    exists r, nth_error reqs i = Some r /\ incl (keys_of p) r;
  si_kind : forall i p, nth_error (cs_threads s) i = Some p ->
    match p with Wait _ _ _ | Woken _ _ | Stopped _ => False | _ => True end;
  si_prog : forall f c, pget (cs_progress s) f = Some c ->
    exists i ks, nth_error (cs_threads s) i = Some (Build f c ks);
  si_build : forall i f c ks, nth_error (cs_threads s) i = Some (Build f c ks) ->
    pget (cs_progress s) f = Some c /\ ~ In f (cs_known s) /\ starts f (cs_log s) = 1;
  si_mark : forall i f ks, nth_error (cs_threads s) i = Some (Mark f ks) ->
    ~ In f (cs_known s) /\ starts f (cs_log s) = 0;
  si_known : forall f, In f (cs_known s) -> starts f (cs_log s) <= 1;
  si_start : forall f, starts f (cs_log s) <> 0 -> In f (cs_known s) \/ pget (cs_progress s) f <> None }.

Lemma nth_wake : forall c ts j, nth_error (map (wake c) ts) j = option_map (wake c) (nth_error ts j).
Proof. intros. rewrite nth_error_map. reflexivity. Qed.

Lemma sep_step : forall K reqs s i s', disjoint reqs -> sep_inv K reqs s -> cstep s i = Some s' -> sep_inv K reqs s'.
Proof.
  intros K reqs s i s' D I E. assert (J := I). destruct I as [I1 I2 I3 I4 I5 I6 I7]. unfold cstep in E.
  assert (Own : forall j p q f, nth_error (cs_threads s) i = Some p -> nth_error (cs_threads s) j = Some q ->
     In f (keys_of p) -> In f (keys_of q) -> j = i).
  { intros j p q f Np Nq Fp Fq. destruct (I1 i p Np) as [r [Hr Lr]], (I1 j q Nq) as [r' [Hr' Lr']].
    apply (D j i r' r f); auto. }
  destruct (nth_error (cs_threads s) i) as [p|] eqn:N; [|discriminate].
  assert (Kind := I2 i p N).
  destruct p as [[|f ks]|f ks|f c ks|f c ks|f ks|e]; try discriminate; try contradiction.
  - destruct (pget (cs_progress s) f) as [c|] eqn:P.
    { exfalso. destruct (I3 f c P) as [j [ks' Nj]].
      assert (X := Own j _ _ f eq_refl Nj (or_introl eq_refl) (or_introl eq_refl)). subst j. congruence. }
    destruct (kmem f (cs_known s)) eqn:M; injection E as <-.
    + split; cbn [cs_threads cs_known cs_progress cs_log starts]; auto.
      * intros j q Nj. rewrite set_pc_nth, N in Nj. destruct (Nat.eqb i j) eqn:Eij; [|now apply I1].
        apply Nat.eqb_eq in Eij. subst j. injection Nj as <-. destruct (I1 i _ N) as [r [Hr Lr]].
        exists r. split; auto. intros x Hx. apply Lr. now right.
      * intros j q Nj. rewrite set_pc_nth, N in Nj. destruct (Nat.eqb i j); [injection Nj as <-; exact I|now apply (I2 j)].
      * intros g c Pg. destruct (I3 g c Pg) as [j [ks' Nj]]. exists j, ks'. rewrite set_pc_nth.
        destruct (Nat.eqb i j) eqn:Eij; auto. apply Nat.eqb_eq in Eij. subst. congruence.
      * intros j g c ks' Nj. rewrite set_pc_nth, N in Nj. destruct (Nat.eqb i j); [discriminate|now apply (I4 j g c ks')].
      * intros j g ks' Nj. rewrite set_pc_nth, N in Nj. destruct (Nat.eqb i j); [discriminate|now apply (I5 j g ks')].
    + apply kmem_notin in M. split; cbn [cs_threads cs_known cs_progress cs_log]; auto.
      * intros j q Nj. rewrite set_pc_nth, N in Nj. destruct (Nat.eqb i j) eqn:Eij; [|now apply I1].
        apply Nat.eqb_eq in Eij. subst j. injection Nj as <-. now apply (I1 i _ N).
      * intros j q Nj. rewrite set_pc_nth, N in Nj. destruct (Nat.eqb i j); [injection Nj as <-; exact I|now apply (I2 j)].
      * intros g c Pg. destruct (I3 g c Pg) as [j [ks' Nj]]. exists j, ks'. rewrite set_pc_nth.
        destruct (Nat.eqb i j) eqn:Eij; auto. apply Nat.eqb_eq in Eij. subst. congruence.
      * intros j g c ks' Nj. rewrite set_pc_nth, N in Nj. destruct (Nat.eqb i j); [discriminate|now apply (I4 j g c ks')].
      * intros j g ks' Nj. rewrite set_pc_nth, N in Nj. destruct (Nat.eqb i j); [|now apply (I5 j g ks')].
        injection Nj as <- <-. split; auto. destruct (Nat.eq_dec (starts f (cs_log s)) 0) as [Z|Z]; auto.
        destruct (I7 f Z); congruence.
  - destruct (I5 i f ks N) as [Nk Z]. injection E as <-.
    split; cbn [cs_threads cs_known cs_progress cs_log starts].
    + intros j q Nj. rewrite set_pc_nth, N in Nj. destruct (Nat.eqb i j) eqn:Eij; [|now apply I1].
      apply Nat.eqb_eq in Eij. subst j. injection Nj as <-. now apply (I1 i _ N).
    + intros j q Nj. rewrite set_pc_nth, N in Nj. destruct (Nat.eqb i j); [injection Nj as <-; exact I|now apply (I2 j)].
    + intros g c Pg. rewrite pget_set in Pg. destruct (Nat.eqb f g) eqn:Ef.
      * injection Pg as <-. apply Nat.eqb_eq in Ef. subst g. exists i, ks. rewrite set_pc_nth, Nat.eqb_refl, N. reflexivity.
      * destruct (I3 g c Pg) as [j [ks' Nj]]. exists j, ks'. rewrite set_pc_nth.
        destruct (Nat.eqb i j) eqn:Eij; auto. apply Nat.eqb_eq in Eij. subst. congruence.
    + intros j g c ks' Nj. rewrite set_pc_nth, N in Nj. destruct (Nat.eqb i j) eqn:Eij.
      * injection Nj as <- <- <-. rewrite pget_set, Nat.eqb_refl. split; [reflexivity|split; [exact Nk|lia]].
      * destruct (I4 j g c ks' Nj) as [X1 [X2 X3]]. rewrite pget_set. destruct (Nat.eqb f g) eqn:Ef.
        -- exfalso. apply Nat.eqb_eq in Ef. subst g.
           assert (X := Own j _ _ f eq_refl Nj (or_introl eq_refl) (or_introl eq_refl)). subst j. rewrite Nat.eqb_refl in Eij. discriminate.
        -- split; auto.
    + intros j g ks' Nj. rewrite set_pc_nth, N in Nj. destruct (Nat.eqb i j) eqn:Eij; [discriminate|].
      destruct (I5 j g ks' Nj) as [X1 X2]. split; auto. destruct (Nat.eqb f g) eqn:Ef; auto.
      exfalso. apply Nat.eqb_eq in Ef. subst g.
      assert (X := Own j _ _ f eq_refl Nj (or_introl eq_refl) (or_introl eq_refl)). subst j. rewrite Nat.eqb_refl in Eij. discriminate.
    + intros g Hg. destruct (Nat.eqb f g) eqn:Ef; [|now apply I6]. apply Nat.eqb_eq in Ef. subst g. contradiction.
    + intros g Hg. rewrite pget_set. destruct (Nat.eqb f g); [right; congruence|now apply I7].
  - destruct (I4 i f c ks N) as [P [Nk Z]]. rewrite P in E. injection E as <-.
    assert (Back : forall j q, nth_error (map (wake c) (set_pc (cs_threads s) i (Ready ks))) j = Some q ->
      (j = i /\ q = Ready ks) \/ (j <> i /\ nth_error (cs_threads s) j = Some q)).
    { intros j q Nj. rewrite nth_wake, set_pc_nth, N in Nj. destruct (Nat.eqb i j) eqn:Eij.
      - apply Nat.eqb_eq in Eij. subst j. injection Nj as <-. now left.
      - right. apply Nat.eqb_neq in Eij. split; auto. destruct (nth_error (cs_threads s) j) as [q0|] eqn:Nj'; [|discriminate].
        injection Nj as <-. assert (X := I2 j q0 Nj'). destruct q0; try contradiction; reflexivity. }
    assert (Fwd : forall j q, j <> i -> nth_error (cs_threads s) j = Some q ->
      nth_error (map (wake c) (set_pc (cs_threads s) i (Ready ks))) j = Some q).
    { intros j q Hj Nj. rewrite nth_wake, set_pc_nth, N. destruct (Nat.eqb i j) eqn:Eij; [apply Nat.eqb_eq in Eij; congruence|].
      rewrite Nj. cbn [option_map]. f_equal. assert (X := I2 j q Nj). destruct q; try contradiction; reflexivity. }
    split; cbn [cs_threads cs_known cs_progress cs_log starts].
    + intros j q Nj. destruct (Back j q Nj) as [[-> ->]|[Hj Nj']]; [|now apply I1].
      destruct (I1 i _ N) as [r [Hr Lr]]. exists r. split; auto. intros x Hx. apply Lr. now right.
    + intros j q Nj. destruct (Back j q Nj) as [[-> ->]|[Hj Nj']]; [exact I|now apply (I2 j)].
    + intros g d Pg. rewrite pget_del in Pg. destruct (Nat.eqb f g) eqn:Ef; [discriminate|].
      destruct (I3 g d Pg) as [j [ks' Nj]]. exists j, ks'. apply Fwd; auto. intros ->. 
      assert (X : Build f c ks = Build g d ks') by congruence. injection X as -> _ _. rewrite Nat.eqb_refl in Ef. discriminate.
    + intros j g d ks' Nj. destruct (Back j _ Nj) as [[_ X]|[Hj Nj']]; [discriminate|].
      destruct (I4 j g d ks' Nj') as [X1 [X2 X3]]. rewrite pget_del. destruct (Nat.eqb f g) eqn:Ef.
      * exfalso. apply Nat.eqb_eq in Ef. subst g. apply Hj. exact (Own j _ _ f eq_refl Nj' (or_introl eq_refl) (or_introl eq_refl)).
      * split; auto. split; auto. intros [X|X]; [subst; rewrite Nat.eqb_refl in Ef; discriminate|contradiction].
    + intros j g ks' Nj. destruct (Back j _ Nj) as [[_ X]|[Hj Nj']]; [discriminate|].
      destruct (I5 j g ks' Nj') as [X1 X2]. split; auto. intros [X|X]; [|contradiction]. subst g.
      apply Hj. exact (Own j _ _ f eq_refl Nj' (or_introl eq_refl) (or_introl eq_refl)).
    + intros g [<-|Hg]; [lia|now apply I6].
    + intros g Hg. rewrite pget_del. destruct (Nat.eqb f g) eqn:Ef; [left; left; now apply Nat.eqb_eq|].
      destruct (I7 g Hg); auto. left. now right.
Qed.
Lemma sep_init : forall K reqs, sep_inv K reqs (cinit K reqs).
Proof.
  intros K reqs. unfold cinit. split; cbn [cs_threads cs_known cs_progress cs_log starts pget]; try discriminate; auto.
  - intros i p H. rewrite nth_error_map in H. destruct (nth_error reqs i) as [r|]; [|discriminate].
    injection H as <-. exists r. split; auto. apply incl_refl.
  - intros i p H. rewrite nth_error_map in H. destruct (nth_error reqs i) as [r|]; [|discriminate].
    injection H as <-. exact I.
  - intros i f c ks H. rewrite nth_error_map in H. destruct (nth_error reqs i); discriminate.
  - intros i f ks H. rewrite nth_error_map in H. destruct (nth_error reqs i); discriminate.
Qed.
Lemma sep_run : forall K reqs sch s s', disjoint reqs -> Forall (fun e => snd e = false) sch ->
  sep_inv K reqs s -> crun s sch = Some s' -> sep_inv K reqs s'.
Proof.
  intros K reqs. induction sch as [|[i b] sch IH]; intros s s' D F I H.
  - injection H as <-. exact I.
  - apply Forall_cons_iff in F. destruct F as [Fb F]. cbn [snd] in Fb. subst b. cbn [crun] in H.
    destruct (cstep s i) as [s1|] eqn:E; [|discriminate]. apply (IH s1 s' D F); auto. now apply (sep_step K reqs s i s1).
Qed.

(** If no two threads ask for the same entry, then under every interleaving no constructor is
    called twice for the same entry and no thread fails or waits: each can go on until it is done. *)
Theorem C52_separate_partial : forall known reqs sch s, disjoint reqs -> Forall (fun e => snd e = false) sch ->
  crun (cinit known reqs) sch = Some s ->
  (forall f, starts f (cs_log s) <= 1) /\
  (forall i p, nth_error (cs_threads s) i = Some p -> done p \/ exists s', cstep s i = Some s').
Proof.
  intros known reqs sch s D F H. assert (I := sep_run known reqs sch _ s D F (sep_init known reqs) H).
  assert (J := I). destruct I as [I1 I2 I3 I4 I5 I6 I7]. split.
  - intro f. destruct (Nat.eq_dec (starts f (cs_log s)) 0) as [Z|Z]; [lia|].
    destruct (I7 f Z) as [X|X]; [now apply I6|].
    destruct (pget (cs_progress s) f) as [c|] eqn:P; [|congruence].
    destruct (I3 f c P) as [i [ks N]]. destruct (I4 i f c ks N) as [_ [_ X3]]. lia.
  - intros i p N. assert (X := I2 i p N). unfold cstep. rewrite N.
    destruct p as [[|f ks]|f ks|f c ks|f c ks|f ks|e]; try contradiction; [left; reflexivity| | |].
    + right. destruct (pget (cs_progress s) f); [eauto|]. destruct (kmem f (cs_known s)); eauto.
    + right. eauto.
    + right. destruct (pget (cs_progress s) f); eauto.
Qed.
Print Assumptions C52_separate_partial.
Example ex_C52_separate : disjoint [[1; 2; 1]; [3]] /\
  exists s, crun (cinit [2] [[1; 2; 1]; [3]]) (map (fun i => (i, false)) [0; 1; 0; 1; 0; 0; 1; 0]) = Some s /\
    Forall done (cs_threads s).
Proof.
  split.
  - intros i j ki kj f Hi Hj Fi Fj. destruct i as [|[|i]], j as [|[|j]]; cbn in Hi, Hj; auto; try discriminate;
      try (destruct i; discriminate); try (destruct j; discriminate); injection Hi as <-; injection Hj as <-;
      cbn in Fi, Fj; intuition lia.
  - eexists. split; [vm_compute; reflexivity|]. repeat constructor.
Qed.

(** ** Two threads that ask for the same entry *)

(** Both can find it missing before either has announced that it builds it: the constructor is
    called twice, and one of them fails. *)
Theorem C52_twice_refuted : forall f, exists sch s, crun (cinit [] [[f]; [f]]) sch = Some s /\
  starts f (cs_log s) = 2 /\ nth_error (cs_threads s) 1 = Some (Stopped EKey).
Proof.
  intro f. exists (map (fun i => (i, false)) [0; 1; 0; 1; 0; 1]). eexists. split.
  - cbn. rewrite !Nat.eqb_refl. cbn. rewrite ?Nat.eqb_refl. cbn. reflexivity.
  - cbn. rewrite !Nat.eqb_refl. auto.
Qed.
(** The entry can be returned to a thread while another one is still writing it. *)
Theorem C52_being_written_refuted : forall f, exists sch s c, crun (cinit [] [[f]; [f]]) sch = Some s /\
  In (CReturn 0 f) (cs_log s) /\ nth_error (cs_threads s) 1 = Some (Build f c []).
Proof.
  intro f. exists (map (fun i => (i, false)) [0; 1; 0; 1; 0]). do 2 eexists. split.
  - cbn. rewrite !Nat.eqb_refl. cbn. rewrite ?Nat.eqb_refl. cbn. reflexivity.
  - cbn. auto.
Qed.
(** A third thread can be left waiting for ever. *)
Theorem C52_blocked_refuted : forall f, exists sch s c, crun (cinit [] [[f]; [f]; [f]]) sch = Some s /\
  nth_error (cs_threads s) 2 = Some (Wait f c []) /\ forall i b, (if b : bool then cfail s i else cstep s i) = None.
Proof.
  intro f. exists (map (fun i => (i, false)) [0; 1; 0; 1; 2; 0; 1]). do 2 eexists. split.
  - cbn. rewrite !Nat.eqb_refl. cbn. rewrite ?Nat.eqb_refl. cbn. reflexivity.
  - split; [reflexivity|]. intros [|[|[|[|i]]]] [|]; reflexivity.
Qed.
(** So does a constructor that raises: whoever asks for the entry later waits for ever. *)
Theorem C52_failure_blocks_refuted : forall f, exists sch s c, crun (cinit [] [[f]; [f]]) sch = Some s /\
  nth_error (cs_threads s) 1 = Some (Wait f c []) /\ forall i b, (if b : bool then cfail s i else cstep s i) = None.
Proof.
  intro f. exists [(0, false); (0, false); (0, true); (1, false)]. do 2 eexists. split.
  - cbn. rewrite !Nat.eqb_refl. cbn. rewrite ?Nat.eqb_refl. cbn. reflexivity.
  - split; [reflexivity|]. intros [|[|[|i]]] [|]; reflexivity.
Qed.
Print Assumptions C52_twice_refuted.
Print Assumptions C52_being_written_refuted.
Print Assumptions C52_blocked_refuted.
Print Assumptions C52_failure_blocks_refuted.
