(** Which of two overlapping blocks is inside the other in merged texts. *)
From Coq Require Import List ZArith NArith Bool Arith Lia.
From Verif Require Import Py PyFacts TextModel TextSpec TextProofs TextMerge.
Import ListNotations.

(** ** Vocabulary: texts without nested blocks *)

(** Number of characters up to the end of the block (or the next block). *)
Fixpoint span (ts : list token) : nat :=
  match ts with
  | TText s :: ts' => List.length s + span ts'
  | TNewline n :: ts' => n + span ts'
  | _ => 0
  end.
(** Every character with the block around it: its name and the positions of its begin and end. *)
Definition mark := (str * nat * nat)%type.
Fixpoint marked (pos : nat) (cur : option mark) (ts : list token) : list (char * option mark) :=
  match ts with
  | [] => []
  | TText s :: ts' => map (fun c => (c, cur)) s ++ marked (pos + List.length s) cur ts'
  | TNewline n :: ts' => repeat (10%N, None) n ++ marked (pos + n) cur ts'
  | TBegin s :: ts' => marked pos (Some (s, pos, pos + span ts')) ts'
  | TEnd :: ts' => marked pos None ts'
  end.
(** The block [p,q) of the first text is around the block [p',q') of the second one: it begins
    before it, or at the same place and is longer. *)
Definition around (p q p' q' : nat) : bool := (p <? p') || ((p =? p') && (q' <? q)).
Definition nested (m1 m2 : option mark) : list str :=
  match m1, m2 with
  | None, None => []
  | Some (a, _, _), None => [a]
  | None, Some (b, _, _) => [b]
  | Some (a, p, q), Some (b, p', q') => if around p q p' q' then [b; a] else [a; b]
  end.
Fixpoint both (l1 l2 : list (char * option mark)) : list (char * list str) :=
  match l1, l2 with
  | (c, m1) :: l1', (_, m2) :: l2' => (c, if N.eqb c 10 then [] else nested m1 m2) :: both l1' l2'
  | _, _ => []
  end.
(** No block is empty. *)
Fixpoint solid (ts : list token) : Prop :=
  match ts with
  | [] => True
  | TBegin _ :: ts' => 1 <= span ts' /\ solid ts'
  | _ :: ts' => solid ts'
  end.

(** ** The interleaving *)
Definition obsm (a b : list token) : Prop :=
  (forall pos cur, marked pos cur a = marked pos cur b) /\ span a = span b.
Lemma obsm_cons : forall t a b, obsm a b -> obsm (t :: a) (t :: b).
Proof.
  intros t a b [H1 H2]. split; [intros pos cur|]; destruct t as [s|n|s|]; cbn; auto; now rewrite ?H2, ?H1.
Qed.
Lemma obsm_text : forall v w a q, obsm a (TText w :: q) -> obsm (TText v :: a) (TText (v ++ w) :: q).
Proof.
  intros v w a q [H1 H2]. split; [intros pos cur|]; cbn.
  - rewrite H1. cbn. rewrite map_app, app_length, Nat.add_assoc, <- app_assoc. reflexivity.
  - rewrite H2. cbn. rewrite app_length. lia.
Qed.
Lemma obsm_nl : forall v w a q, obsm a (TNewline w :: q) -> obsm (TNewline v :: a) (TNewline (v + w) :: q).
Proof.
  intros v w a q [H1 H2]. split; [intros pos cur|]; cbn.
  - rewrite H1. cbn. rewrite repeat_app, Nat.add_assoc, <- app_assoc. reflexivity.
  - rewrite H2. cbn. lia.
Qed.
Lemma obsm_refl : forall a, obsm a a.
Proof. intro a. split; auto. Qed.

(** The order in which the blocks of the two lists are opened. *)
Definition key := option (nat * nat).
Definition tok_len (t : token) : nat := match t with TText s => List.length s | TNewline n => n | _ => 0 end.
Fixpoint ordered (pos : nat) (k1 k2 : key) (ms : list mitem) : Prop :=
  match ms with
  | [] => True
  | MTok t :: ms' => ordered (pos + tok_len t) k1 k2 ms'
  | MBlock true (TBegin s) :: ms' =>
      let q := pos + span (proj true ms') in
      k1 = None /\ match k2 with Some (p', q') => around pos q p' q' = false | None => True end /\
      ordered pos (Some (pos, q)) k2 ms'
  | MBlock false (TBegin s) :: ms' =>
      let q' := pos + span (proj false ms') in
      k2 = None /\ match k1 with Some (p, q) => around p q pos q' = true | None => True end /\
      ordered pos k1 (Some (pos, q')) ms'
  | MBlock true _ :: ms' => ordered pos None k2 ms'
  | MBlock false _ :: ms' => ordered pos k1 None ms'
  end.

(** ** Closing and reopening *)
Definition stack (m1 m2 : option mark) : list (bool * token) :=
  match m1, m2 with
  | None, None => []
  | Some (a, _, _), None => [(true, TBegin a)]
  | None, Some (b, _, _) => [(false, TBegin b)]
  | Some (a, p, q), Some (b, p', q') =>
      if around p q p' q' then [(false, TBegin b); (true, TBegin a)] else [(true, TBegin a); (false, TBegin b)]
  end.
Definition key_of (m : option mark) : key := match m with Some (_, p, q) => Some (p, q) | None => None end.
Lemma both_text : forall s m1 m2 l1 l2,
  both (map (fun c => (c, m1)) s ++ l1) (map (fun c => (c, m2)) s ++ l2) = styled_text (nested m1 m2) s ++ both l1 l2.
Proof. induction s as [|c s IH]; intros; cbn; [reflexivity|]. now rewrite IH. Qed.
Lemma both_nl : forall n l1 l2, both (repeat (10%N, None) n ++ l1) (repeat (10%N, None) n ++ l2) =
  repeat (10%N, []) n ++ both l1 l2.
Proof. induction n as [|n IH]; intros; cbn; [reflexivity|]. now rewrite IH. Qed.

Lemma loop_marks : forall ms pos m1 m2 r, Forall item_ok ms -> merge_loop ms (stack m1 m2) = Ok r ->
  ordered pos (key_of m1) (key_of m2) ms ->
  styled (nested m1 m2) r = both (marked pos m1 (proj true ms)) (marked pos m2 (proj false ms)).
Proof.
  induction ms as [|m ms IH]; intros pos m1 m2 r Hi Hr Ho.
  - cbn in Hr. destruct (stack m1 m2) eqn:E; [|discriminate]. injection Hr as <-. reflexivity.
  - inversion Hi as [|? ? Hm Hms]; subst. destruct m as [t|i t].
    + cbn [merge_loop] in Hr. destruct (merge_loop ms (stack m1 m2)) as [r'|] eqn:E; [|discriminate].
      cbn [rbind] in Hr. injection Hr as <-. cbn [ordered] in Ho. assert (IH' := IH _ _ _ _ Hms E Ho).
      cbn [proj]. destruct t as [s|n|s|]; cbn in Hm; try tauto; cbn [marked].
      * rewrite styled_text_cons, both_text. now rewrite IH'.
      * rewrite styled_nl_cons, both_nl. now rewrite IH'.
    + destruct t as [s|n|s|]; cbn in Hm; try tauto.
      * cbn [merge_loop] in Hr. destruct i; cbn [ordered] in Ho; destruct Ho as (E0 & Hw & Ho).
        -- destruct m1 as [[[a p] q]|]; [discriminate|].
           assert (Es : (true, TBegin s) :: stack None m2 = stack (Some (s, pos, pos + span (proj true ms))) m2).
           { destruct m2 as [[[b p'] q']|]; [|reflexivity]. cbn in Hw |- *. now rewrite Hw. }
           rewrite Es in Hr. destruct (merge_loop ms _) as [r'|] eqn:E; [|discriminate].
           cbn [rbind] in Hr. injection Hr as <-. cbn [proj Bool.eqb marked].
           rewrite <- (IH pos (Some (s, pos, pos + span (proj true ms))) m2 r' Hms E Ho).
           change (styled (nested None m2) (TBegin s :: r')) with (styled (s :: nested None m2) r'). f_equal.
           destruct m2 as [[[b p'] q']|]; [|reflexivity]. cbn in Hw |- *. now rewrite Hw.
        -- destruct m2 as [[[a p] q]|]; [discriminate|].
           assert (Es : (false, TBegin s) :: stack m1 None = stack m1 (Some (s, pos, pos + span (proj false ms)))).
           { destruct m1 as [[[b p'] q']|]; [|reflexivity]. cbn in Hw |- *. now rewrite Hw. }
           rewrite Es in Hr. destruct (merge_loop ms _) as [r'|] eqn:E; [|discriminate].
           cbn [rbind] in Hr. injection Hr as <-. cbn [proj Bool.eqb marked].
           rewrite <- (IH pos m1 (Some (s, pos, pos + span (proj false ms))) r' Hms E Ho).
           change (styled (nested m1 None) (TBegin s :: r')) with (styled (s :: nested m1 None) r'). f_equal.
           destruct m1 as [[[b p'] q']|]; [|reflexivity]. cbn in Hw |- *. now rewrite Hw.
      * cbn [merge_loop] in Hr.
        assert (K : forall m1' m2', merge_loop ms (stack m1' m2') = merge_loop ms (stack m1' m2')) by reflexivity.
        destruct i; cbn [ordered proj Bool.eqb marked] in Ho |- *.
        -- destruct m1 as [[[a p] q]|]; [|destruct m2 as [[[b p'] q']|]; discriminate].
           destruct m2 as [[[b p'] q']|]; cbn [stack nested] in Hr |- *; [destruct (around p q p' q')|];
             cbn [close_block Bool.eqb app] in Hr;
             match type of Hr with context [merge_loop ms ?o] => destruct (merge_loop ms o) as [r'|] eqn:E end;
             try discriminate; cbn in Hr; injection Hr as <-.
           ++ exact (IH pos None (Some (b, p', q')) r' Hms E Ho).
           ++ exact (IH pos None (Some (b, p', q')) r' Hms E Ho).
           ++ exact (IH pos None None r' Hms E Ho).
        -- destruct m2 as [[[b p'] q']|]; [|destruct m1 as [[[a p] q]|]; discriminate].
           destruct m1 as [[[a p] q]|]; cbn [stack nested] in Hr |- *; [destruct (around p q p' q')|];
             cbn [close_block Bool.eqb app] in Hr;
             match type of Hr with context [merge_loop ms ?o] => destruct (merge_loop ms o) as [r'|] eqn:E end;
             try discriminate; cbn in Hr; injection Hr as <-.
           ++ exact (IH pos (Some (a, p, q)) None r' Hms E Ho).
           ++ exact (IH pos (Some (a, p, q)) None r' Hms E Ho).
           ++ exact (IH pos None None r' Hms E Ho).
Qed.

(** ** Opening *)
Lemma block_text_span : forall s q, flat true q -> nest 1 q = Some 0 ->
  List.length (block_text (TBegin s :: q)) = span q.
Proof.
  intros s q F N. unfold block_text. cbn [tl].
  assert (G : forall q off n, flat true q -> nest (S n) q = Some 0 ->
    exists k, block_end_from 0 off q = Some (off + k) /\ List.length (tokens_to_text (firstn k q)) = span q).
  { clear. induction q as [|t q IH]; intros off n F N; [discriminate|].
    destruct t as [s|m|s|]; cbn [block_end_from span].
    - destruct (IH (S off) n F N) as (k & E & L). exists (S k). split; [rewrite E; f_equal; lia|].
      cbn. rewrite app_length, L. reflexivity.
    - destruct (IH (S off) n F N) as (k & E & L). exists (S k). split; [rewrite E; f_equal; lia|].
      cbn. rewrite app_length, repeat_length, L. reflexivity.
    - destruct F. discriminate.
    - exists 0. split; [f_equal; lia|]. reflexivity. }
  destruct (G q 1 0 F N) as (k & -> & L). cbn. exact L.
Qed.

(** The head of the tokens shows a character. *)
Definition shows (ts : list token) : Prop :=
  match ts with TText _ :: _ | TNewline _ :: _ | [] => True | _ => False end.
Lemma solid_shows : forall q, flat true q -> 1 <= span q -> shows q.
Proof. intros [|[s|n|s|] q] F H; cbn in *; try exact I; [destruct F; discriminate|lia]. Qed.
Definition is_some (k : key) : bool := match k with Some _ => true | None => false end.
Definition starts (pos : nat) (k : key) : Prop := match k with Some (p, _) => p <= pos | None => True end.
(** Invariants of a block of the first (second) list that begins at the present position. *)
Definition fresh1 (pos : nat) (k1 : key) (r2 : list token) : Prop :=
  match k1 with
  | Some (p, q) => p = pos -> match r2 with TBegin _ :: q2 => pos + span q2 < q | _ => shows r2 end
  | None => True
  end.
Definition fresh2 (pos : nat) (k2 : key) (r1 : list token) : Prop :=
  match k2 with
  | Some (p, q) => p = pos -> match r1 with TBegin _ :: q1 => pos + span q1 <= q | _ => shows r1 end
  | None => True
  end.

Definition depth_of (k : key) : nat := if is_some k then 1 else 0.
Lemma order_spec : forall fuel r1 i1 st1 r2 i2 st2 ms pos k1 k2,
  merge_helper fuel r1 i1 st1 r2 i2 st2 = Ok ms -> clean r1 -> clean r2 ->
  nest (depth_of k1) r1 = Some 0 -> nest (depth_of k2) r2 = Some 0 ->
  flat (is_some k1) r1 -> flat (is_some k2) r2 -> solid r1 -> solid r2 ->
  tokens_to_text r1 = tokens_to_text r2 ->
  starts pos k1 -> starts pos k2 -> fresh1 pos k1 r2 -> fresh2 pos k2 r1 ->
  obsm (proj true ms) r1 /\ obsm (proj false ms) r2 /\ ordered pos k1 k2 ms.
Proof.
  induction fuel as [|f IH]; intros r1 i1 st1 r2 i2 st2 ms pos k1 k2 H C1 C2 N1 N2 F1 F2 S1 S2 HT P1 P2 J1 J2;
    [discriminate|].
  assert (E1 : forall q1 st, r1 = TEnd :: q1 ->
    (do m <- merge_helper f q1 (S i1) st r2 i2 st2; Ok (MBlock true TEnd :: m)) = Ok ms ->
    obsm (proj true ms) r1 /\ obsm (proj false ms) r2 /\ ordered pos k1 k2 ms).
  { intros q1 st -> E. destruct (merge_helper f q1 _ _ _ _ _) as [m|] eqn:Em; [|discriminate].
    cbn [rbind] in E. injection E as <-. inversion C1; subst.
    destruct k1 as [[p q]|]; [|discriminate].
    destruct (IH _ _ _ _ _ _ _ pos None k2 Em) as (G1 & G2 & G3); auto; try exact I.
    { destruct k2 as [[p' q']|]; [|exact I]. cbn in J2 |- *. intro. exfalso. auto. }
    cbn [proj Bool.eqb ordered]. split; [now apply obsm_cons|]. split; auto. }
  assert (E2 : forall q2 st, r2 = TEnd :: q2 ->
    (do m <- merge_helper f r1 i1 st1 q2 (S i2) st; Ok (MBlock false TEnd :: m)) = Ok ms ->
    obsm (proj true ms) r1 /\ obsm (proj false ms) r2 /\ ordered pos k1 k2 ms).
  { intros q2 st -> E. destruct (merge_helper f r1 _ _ _ _ _) as [m|] eqn:Em; [|discriminate].
    cbn [rbind] in E. injection E as <-. inversion C2; subst.
    destruct k2 as [[p q]|]; [|discriminate].
    destruct (IH _ _ _ _ _ _ _ pos k1 None Em) as (G1 & G2 & G3); auto; try exact I.
    { destruct k1 as [[p' q']|]; [|exact I]. cbn in J1 |- *. intro. exfalso. auto. }
    cbn [proj Bool.eqb ordered]. split; [auto|]. split; [now apply obsm_cons|auto]. }
  assert (B1 : forall s q1 st, r1 = TBegin s :: q1 ->
    match r2 with TBegin _ :: q2 => span q2 < span q1 | _ => shows r2 end ->
    (do m <- merge_helper f q1 (S i1) st r2 i2 st2; Ok (MBlock true (TBegin s) :: m)) = Ok ms ->
    obsm (proj true ms) r1 /\ obsm (proj false ms) r2 /\ ordered pos k1 k2 ms).
  { intros s q1 st -> W E. destruct (merge_helper f q1 _ _ _ _ _) as [m|] eqn:Em; [|discriminate].
    cbn [rbind] in E. injection E as <-. inversion C1; subst. destruct F1 as [K1 F1]. destruct S1 as [L1 S1].
    destruct k1 as [[p q]|]; [discriminate|].
    destruct (IH _ _ _ _ _ _ _ pos (Some (pos, pos + span q1)) k2 Em) as (G1 & G2 & G3); auto.
    { cbn. lia. }
    { cbn. intros _. destruct r2 as [|[]]; auto. lia. }
    { assert (W1 := solid_shows _ F1 L1). destruct k2 as [[p' q']|]; [|exact I]. cbn. intros _.
      destruct q1 as [|[]]; auto. destruct W1. }
    cbn [proj Bool.eqb ordered]. split; [now apply obsm_cons|]. split; [auto|].
    destruct G1 as [G1 G1']. rewrite G1'. split; [reflexivity|]. split; [|exact G3].
    destruct k2 as [[p' q']|]; [|exact I]. cbn in P2, J2. unfold around.
    destruct (Nat.ltb_spec pos p'); [lia|]. destruct (Nat.eqb_spec pos p'); [|reflexivity].
    cbn. apply Nat.ltb_ge. apply J2. lia. }
  assert (B2 : forall s q2 st, r2 = TBegin s :: q2 ->
    match r1 with TBegin _ :: q1 => span q1 <= span q2 | _ => shows r1 end ->
    (do m <- merge_helper f r1 i1 st1 q2 (S i2) st; Ok (MBlock false (TBegin s) :: m)) = Ok ms ->
    obsm (proj true ms) r1 /\ obsm (proj false ms) r2 /\ ordered pos k1 k2 ms).
  { intros s q2 st -> W E. destruct (merge_helper f r1 _ _ _ _ _) as [m|] eqn:Em; [|discriminate].
    cbn [rbind] in E. injection E as <-. inversion C2; subst. destruct F2 as [K2 F2]. destruct S2 as [L2 S2].
    destruct k2 as [[p q]|]; [discriminate|].
    destruct (IH _ _ _ _ _ _ _ pos k1 (Some (pos, pos + span q2)) Em) as (G1 & G2 & G3); auto.
    { cbn. lia. }
    { assert (W1 := solid_shows _ F2 L2). destruct k1 as [[p' q']|]; [|exact I]. cbn. intros _.
      destruct q2 as [|[]]; auto. destruct W1. }
    { cbn. intros _. destruct r1 as [|[]]; auto. lia. }
    cbn [proj Bool.eqb ordered]. split; [auto|]. split; [now apply obsm_cons|].
    destruct G2 as [G2 G2']. rewrite G2'. split; [reflexivity|]. split; [|exact G3].
    destruct k1 as [[p' q']|]; [|exact I]. cbn in P1, J1. unfold around.
    destruct (Nat.ltb_spec p' pos); [reflexivity|]. destruct (Nat.eqb_spec p' pos); [|lia].
    cbn. apply Nat.ltb_lt. apply J1. lia. }
  assert (T : forall t a1 j1 a2 j2, 0 < tok_len t ->
    (do m <- merge_helper f a1 j1 st1 a2 j2 st2; Ok (MTok t :: m)) = Ok ms ->
    clean a1 -> clean a2 -> nest (depth_of k1) a1 = Some 0 -> nest (depth_of k2) a2 = Some 0 ->
    flat (is_some k1) a1 -> flat (is_some k2) a2 -> solid a1 -> solid a2 ->
    tokens_to_text a1 = tokens_to_text a2 ->
    exists m, ms = MTok t :: m /\ obsm (proj true m) a1 /\ obsm (proj false m) a2 /\
      ordered (pos + tok_len t) k1 k2 m).
  { intros t a1 j1 a2 j2 Lt E D1 D2 M1 M2 A1 A2 B3 B4 TT.
    destruct (merge_helper f a1 _ _ _ _ _) as [m|] eqn:Em; [|discriminate].
    cbn [rbind] in E. injection E as <-. exists m. split; [reflexivity|].
    eapply IH; eauto.
    - destruct k1 as [[p q]|]; cbn in *; auto; lia.
    - destruct k2 as [[p q]|]; cbn in *; auto; lia.
    - destruct k1 as [[p q]|]; cbn in *; auto; lia.
    - destruct k2 as [[p q]|]; cbn in *; auto; lia. }
  destruct r1 as [|[s1|n1|s1|] q1], r2 as [|[s2|n2|s2|] q2];
    cbn [merge_helper negb andb orb] in H;
    try (match type of H with (do a <- pop ?x; _) = _ => destruct (pop x) as [st'|]; [|discriminate] end;
         cbn [rbind] in H; first [exact (E1 _ _ eq_refl H) | exact (E2 _ _ eq_refl H)]);
    try (exact (B1 _ _ _ eq_refl I H)); try (exact (B2 _ _ _ eq_refl I H)); try discriminate;
    try (inversion C1 as [|? ? O1 Q1]; subst); try (inversion C2 as [|? ? O2 Q2]; subst).
  - injection H as <-. split; [apply obsm_refl|]. split; [apply obsm_refl|exact I].
  - (* texts *)
    cbn [tokens_to_text] in HT. destruct O1 as [O1 O1'], O2 as [O2 O2'].
    assert (0 < length s1) by (destruct s1; [congruence|simpl; lia]).
    assert (0 < length s2) by (destruct s2; [congruence|simpl; lia]).
    destruct (Nat.eqb_spec (length s1) (length s2)) as [E|E].
    { destruct (app_split _ _ _ _ _ HT) as [w [X1 X2]]; [lia|].
      assert (w = []) by (apply length_zero_iff_nil; apply (f_equal (@length N)) in X1;
                          rewrite app_length in X1; lia).
      subst w. rewrite app_nil_r in X1. subst s2. simpl in X2.
      destruct (T (TText s1) _ _ _ _ ltac:(assumption) H) as (m & -> & G1 & G2 & G3); auto.
      cbn [proj ordered]. split; [now apply obsm_cons|]. split; [now apply obsm_cons|exact G3]. }
    destruct (Nat.ltb_spec (length s1) (length s2)) as [L|L].
    + destruct (app_split _ _ _ _ _ HT) as [w [X1 X2]]; [lia|]. subst s2.
      rewrite skipn_app_len in H. rewrite app_length in *.
      destruct (T (TText s1) _ _ _ _ ltac:(assumption) H) as (m & -> & G1 & G2 & G3); auto.
      { constructor; auto. split; [intros ->; simpl in L; lia|]. intro. apply O2'. apply in_or_app. auto. }
      cbn [proj ordered]. split; [now apply obsm_cons|]. split; [now apply obsm_text|exact G3].
    + symmetry in HT. destruct (app_split _ _ _ _ _ HT) as [w [X1 X2]]; [lia|]. subst s1.
      rewrite skipn_app_len in H. rewrite app_length in *.
      destruct (T (TText s2) _ _ _ _ ltac:(assumption) H) as (m & -> & G1 & G2 & G3); auto.
      { constructor; auto. split; [intros ->; simpl in E; lia|]. intro. apply O1'. apply in_or_app. auto. }
      cbn [proj ordered]. split; [now apply obsm_text|]. split; [now apply obsm_cons|exact G3].
  - (* newlines *)
    cbn [tokens_to_text] in HT. simpl in O1, O2. destruct (Nat.eqb_spec n1 n2) as [E|E].
    { subst n2. apply app_inv_head in HT.
      destruct (T (TNewline n1) _ _ _ _ ltac:(cbn; lia) H) as (m & -> & G1 & G2 & G3); auto.
      cbn [proj ordered]. split; [now apply obsm_cons|]. split; [now apply obsm_cons|exact G3]. }
    destruct (Nat.ltb_spec n1 n2) as [L|L].
    + apply repeat_app_inv in HT; [|lia].
      destruct (T (TNewline n1) _ _ _ _ ltac:(cbn; lia) H) as (m & -> & G1 & G2 & G3); auto.
      { constructor; auto. simpl. lia. }
      cbn [proj ordered]. split; [now apply obsm_cons|]. split; [|exact G3].
      replace n2 with (n1 + (n2 - n1)) at 1 by lia. now apply obsm_nl.
    + symmetry in HT. apply repeat_app_inv in HT; [|lia].
      destruct (T (TNewline n2) _ _ _ _ ltac:(cbn; lia) H) as (m & -> & G1 & G2 & G3); auto.
      { constructor; auto. simpl. lia. }
      cbn [proj ordered]. split; [|split; [now apply obsm_cons|exact G3]].
      replace n1 with (n2 + (n1 - n2)) at 1 by lia. now apply obsm_nl.
  - assert (K1 : k1 = None) by (destruct F1 as [F1 _]; destruct k1; [discriminate|reflexivity]).
    assert (K2 : k2 = None) by (destruct F2 as [F2 _]; destruct k2; [discriminate|reflexivity]).
    subst k1 k2. rewrite (block_text_span s1 q1), (block_text_span s2 q2) in H by (try apply F1; try apply F2; assumption).
    destruct (Nat.ltb_spec (span q2) (span q1)) as [L|L].
    + exact (B1 _ _ _ eq_refl L H).
    + exact (B2 _ _ _ eq_refl L H).
  - destruct (list_gt st1 st2);
      (match type of H with (do a <- pop ?x; _) = _ => destruct (pop x) as [st'|]; [|discriminate] end;
       cbn [rbind] in H); [exact (E1 _ _ eq_refl H) | exact (E2 _ _ eq_refl H)].
Qed.
