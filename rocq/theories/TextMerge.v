(** Proofs about tokens_merge. *)
From Coq Require Import List ZArith NArith Bool Arith Lia.
From Verif Require Import Py PyFacts TextModel TextSpec TextProofs.
Import ListNotations.

Definition styled_text (st : list str) (s : str) : list (char * list str) :=
  map (fun c => (c, if N.eqb c 10 then [] else st)) s.

Lemma chars_seen : forall st s, chars (map (seen st) s) = styled_text st s.
Proof.
  induction s as [|c s IH]; simpl; auto. unfold seen at 1, break.
  destruct (N.eqb_spec c 10); subst; simpl; now rewrite IH.
Qed.
Lemma chars_repeat : forall n, chars (repeat break n) = repeat (10%N, []) n.
Proof.
  induction n; auto.
  change (chars (repeat break (S n))) with ((10%N, @nil str) :: chars (repeat break n)).
  now rewrite IHn.
Qed.

Lemma styled_text_cons : forall st s ts,
  styled st (TText s :: ts) = styled_text st s ++ styled st ts.
Proof. intros. unfold styled. simpl. now rewrite chars_app, chars_seen. Qed.
Lemma styled_nl_cons : forall st n ts,
  styled st (TNewline n :: ts) = repeat (10%N, []) n ++ styled st ts.
Proof. intros. unfold styled. simpl. now rewrite chars_app, chars_repeat. Qed.

Lemma plain_from : forall ts st, map fst (styled st ts) = tokens_to_text ts.
Proof.
  induction ts as [|[s|n|s|] ts IH]; intro st; auto.
  - rewrite styled_text_cons, map_app, IH. simpl. f_equal. unfold styled_text.
    rewrite map_map. simpl. apply map_id.
  - rewrite styled_nl_cons, map_app, IH. simpl. f_equal. clear. induction n as [|n IHn]; simpl; auto. now rewrite IHn.
  - apply (IH (s :: st)).
  - apply (IH (tl st)).
Qed.
Lemma plain_text : forall ts, plain ts = tokens_to_text ts.
Proof. intros. apply plain_from. Qed.

Lemma tokens_to_text_app : forall a b,
  tokens_to_text (a ++ b) = tokens_to_text a ++ tokens_to_text b.
Proof.
  induction a as [|[s|n|s|] a IH]; intro b; simpl; auto; now rewrite IH, app_assoc.
Qed.

(** ** The interleaving *)
Fixpoint proj (i : bool) (ms : list mitem) : list token :=
  match ms with
  | [] => []
  | MTok t :: ms' => t :: proj i ms'
  | MBlock j t :: ms' => if Bool.eqb j i then t :: proj i ms' else proj i ms'
  end.

Definition obs (a b : list token) : Prop :=
  (forall st, styled st a = styled st b) /\ (forall n, nest n a = nest n b) /\
  (forall o, flat o a <-> flat o b).

Lemma obs_refl : forall a, obs a a.
Proof. repeat split; auto. Qed.
Lemma obs_cons : forall t a b, obs a b -> obs (t :: a) (t :: b).
Proof.
  intros t a b [H1 [H2 H3]]. split; [|split].
  - intro st. destruct t as [s|n|s|].
    + now rewrite !styled_text_cons, H1.
    + now rewrite !styled_nl_cons, H1.
    + apply (H1 (s :: st)).
    + apply (H1 (tl st)).
  - intro n. destruct t; simpl; auto. destruct n; auto.
  - intro o. destruct t; simpl; auto; firstorder.
Qed.

Lemma obs_text : forall v w a q, obs a (TText w :: q) -> obs (TText v :: a) (TText (v ++ w) :: q).
Proof.
  intros v w a q [H1 [H2 H3]]. split; [|split].
  - intro st. rewrite !styled_text_cons, H1, styled_text_cons. unfold styled_text.
    now rewrite map_app, app_assoc.
  - intro n. simpl. now rewrite H2.
  - intro o. simpl. rewrite H3. reflexivity.
Qed.
Lemma obs_nl : forall v w a q, obs a (TNewline w :: q) ->
  obs (TNewline v :: a) (TNewline (v + w) :: q).
Proof.
  intros v w a q [H1 [H2 H3]]. split; [|split].
  - intro st. rewrite !styled_nl_cons, H1, styled_nl_cons, repeat_app. now rewrite app_assoc.
  - intro n. simpl. now rewrite H2.
  - intro o. simpl. rewrite H3. reflexivity.
Qed.

Definition item_ok (m : mitem) : Prop :=
  match m with
  | MTok (TText s) => s <> [] /\ ~ In 10%N s
  | MTok (TNewline n) => 1 <= n
  | MTok _ => False
  | MBlock _ (TBegin _) => True
  | MBlock _ TEnd => True
  | MBlock _ _ => False
  end.

Lemma nest_pop : forall (st : list nat) q, nest (length st) (TEnd :: q) = Some 0 ->
  exists st', pop st = Ok st' /\ nest (length st') q = Some 0.
Proof.
  intros st q H. destruct st as [|x st]; [discriminate|].
  exists (removelast (x :: st)). split; auto. simpl in H.
  assert (E : length (removelast (x :: st)) = length st).
  { rewrite removelast_firstn_len, firstn_length. simpl. lia. }
  now rewrite E.
Qed.

Lemma app_split : forall (A : Type) (a b c d : list A), a ++ b = c ++ d ->
  length a <= length c -> exists w, c = a ++ w /\ b = w ++ d.
Proof.
  induction a as [|x a IH]; intros b c d H Hl.
  - exists c. auto.
  - destruct c as [|y c]; [simpl in Hl; lia|]. simpl in H. injection H as -> H.
    destruct (IH b c d H) as [w [-> ->]]; [simpl in Hl; lia|]. exists w. auto.
Qed.
Lemma skipn_app_len : forall (A : Type) (a b : list A), skipn (length a) (a ++ b) = b.
Proof. intros. rewrite skipn_app, Nat.sub_diag, skipn_all. reflexivity. Qed.

Lemma repeat_app_inv : forall n m (a b : str), repeat nl n ++ a = repeat nl m ++ b -> n <= m ->
  a = repeat nl (m - n) ++ b.
Proof.
  induction n as [|n IH]; intros m a b H Hm; [now rewrite Nat.sub_0_r|].
  destruct m; [lia|]. simpl in H. injection H as H. apply IH in H; [|lia]. exact H.
Qed.

(** With enough fuel the loop ends. *)
Lemma merge_helper_fuel : forall fuel r1 i1 st1 r2 i2 st2, size r1 + size r2 < fuel ->
  clean r1 -> clean r2 ->
  merge_helper fuel r1 i1 st1 r2 i2 st2 <> Err ELoop.
Proof.
  induction fuel as [|f IH]; intros r1 i1 st1 r2 i2 st2 Hf C1 C2; [lia|].
  assert (K : forall (A B : Type) (x : result A) (g : A -> result B), x <> Err ELoop ->
     (forall a, g a <> Err ELoop) -> rbind x g <> Err ELoop).
  { intros A B [a|e] g H1 H2; simpl; auto. congruence. }
  assert (P : forall st, pop st <> Err ELoop) by (intros []; discriminate).
  destruct r1 as [|[s1|n1|s1|] q1], r2 as [|[s2|n2|s2|] q2]; cbn [merge_helper negb andb orb];
    simpl in Hf; inversion C1 as [|? ? O1 Q1]; inversion C2 as [|? ? O2 Q2]; subst;
    try discriminate;
    try (apply K; [apply P|intro]; apply K; [apply IH; simpl; auto; lia|discriminate]);
    try (apply K; [apply IH; simpl; auto; lia|discriminate]).
  - destruct (Nat.eqb_spec (length s1) (length s2)) as [E|E].
    { apply K; [apply IH; auto; lia|discriminate]. }
    destruct O1 as [O1 O1'], O2 as [O2 O2'].
    destruct (Nat.ltb_spec (length s1) (length s2)) as [L|L].
    + apply K; [apply IH; auto|discriminate].
      * simpl. rewrite skipn_length. destruct s1; [congruence|]. simpl in *. lia.
      * constructor; auto. split.
        -- intro Hx. apply (f_equal (@length N)) in Hx. rewrite skipn_length in Hx. simpl in Hx. lia.
        -- intro Hx. apply O2'. rewrite <- (firstn_skipn (length s1) s2). apply in_or_app. auto.
    + apply K; [apply IH; auto|discriminate].
      * simpl. rewrite skipn_length. destruct s2; [congruence|]. simpl in *. lia.
      * constructor; auto. split.
        -- intro Hx. apply (f_equal (@length N)) in Hx. rewrite skipn_length in Hx. simpl in Hx. lia.
        -- intro Hx. apply O1'. rewrite <- (firstn_skipn (length s2) s1). apply in_or_app. auto.
  - simpl in O1, O2. destruct (Nat.eqb_spec n1 n2) as [E|E].
    { apply K; [apply IH; auto; lia|discriminate]. }
    destruct (Nat.ltb_spec n1 n2) as [L|L].
    + apply K; [apply IH; auto; [simpl; lia|constructor; auto; simpl; lia]|discriminate].
    + apply K; [apply IH; auto; [simpl; lia|constructor; auto; simpl; lia]|discriminate].
  - destruct (_ <? _).
    + apply K; [apply IH; auto; simpl; lia|discriminate].
    + apply K; [apply IH; auto; simpl; lia|discriminate].
  - destruct (list_gt st1 st2).
    + apply K; [apply P|intro]. apply K; [apply IH; simpl; auto; lia|discriminate].
    + apply K; [apply P|intro]. apply K; [apply IH; simpl; auto; lia|discriminate].
Qed.

Definition merged (r : result (list mitem)) (r1 r2 : list token) : Prop :=
  exists ms, r = Ok ms /\ Forall item_ok ms /\ obs (proj true ms) r1 /\ obs (proj false ms) r2.

Lemma merged_block1 : forall r t q1 r2, (t = TEnd \/ exists s, t = TBegin s) ->
  merged r q1 r2 -> merged (do m <- r; Ok (MBlock true t :: m)) (t :: q1) r2.
Proof.
  intros r t q1 r2 Ht [ms [-> [H1 [H2 H3]]]]. exists (MBlock true t :: ms). split; auto.
  split; [constructor; auto; destruct Ht as [-> | [s ->]]; exact I|].
  split; auto. simpl. now apply obs_cons.
Qed.
Lemma merged_block2 : forall r t r1 q2, (t = TEnd \/ exists s, t = TBegin s) ->
  merged r r1 q2 -> merged (do m <- r; Ok (MBlock false t :: m)) r1 (t :: q2).
Proof.
  intros r t r1 q2 Ht [ms [-> [H1 [H2 H3]]]]. exists (MBlock false t :: ms). split; auto.
  split; [constructor; auto; destruct Ht as [-> | [s ->]]; exact I|].
  split; auto. simpl. now apply obs_cons.
Qed.

Lemma merge_helper_spec : forall fuel r1 i1 st1 r2 i2 st2, size r1 + size r2 < fuel ->
  clean r1 -> clean r2 -> nest (length st1) r1 = Some 0 -> nest (length st2) r2 = Some 0 ->
  tokens_to_text r1 = tokens_to_text r2 ->
  merged (merge_helper fuel r1 i1 st1 r2 i2 st2) r1 r2.
Proof.
  induction fuel as [|f IH]; intros r1 i1 st1 r2 i2 st2 Hf C1 C2 N1 N2 HT; [lia|].
  assert (E1 : forall q1, r1 = TEnd :: q1 -> merged (do st1' <- pop st1;
     do m <- merge_helper f q1 (S i1) st1' r2 i2 st2; Ok (MBlock true TEnd :: m)) r1 r2).
  { intros q1 ->. destruct (nest_pop _ _ N1) as [st' [-> N1']]. cbn [rbind].
    apply merged_block1; auto. inversion C1; subst.
    apply IH; auto. simpl in Hf. lia. }
  assert (E2 : forall q2, r2 = TEnd :: q2 -> merged (do st2' <- pop st2;
     do m <- merge_helper f r1 i1 st1 q2 (S i2) st2'; Ok (MBlock false TEnd :: m)) r1 r2).
  { intros q2 ->. destruct (nest_pop _ _ N2) as [st' [-> N2']]. cbn [rbind].
    apply merged_block2; auto. inversion C2; subst.
    apply IH; auto. simpl in Hf. lia. }
  assert (B1 : forall s q1, r1 = TBegin s :: q1 -> merged (do m <- merge_helper f q1 (S i1)
     (st1 ++ [i1]) r2 i2 st2; Ok (MBlock true (TBegin s) :: m)) r1 r2).
  { intros s q1 ->. apply merged_block1; eauto. inversion C1; subst.
    apply IH; auto; [simpl in Hf; lia|]. rewrite app_length, Nat.add_comm. exact N1. }
  assert (B2 : forall s q2, r2 = TBegin s :: q2 -> merged (do m <- merge_helper f r1 i1
     st1 q2 (S i2) (st2 ++ [i1]); Ok (MBlock false (TBegin s) :: m)) r1 r2).
  { intros s q2 ->. apply merged_block2; eauto. inversion C2; subst.
    apply IH; auto; [simpl in Hf; lia|]. rewrite app_length, Nat.add_comm. exact N2. }
  destruct r1 as [|[s1|n1|s1|] q1], r2 as [|[s2|n2|s2|] q2];
    cbn [merge_helper negb andb orb]; auto;
    try (now apply E1); try (now apply E2); try (now apply B1); try (now apply B2);
    try (inversion C1 as [|? ? O1 Q1]; subst); try (inversion C2 as [|? ? O2 Q2]; subst);
    simpl in Hf, HT.
  - exists []. repeat split; auto.
  - exfalso. destruct O2. destruct s2; [congruence|discriminate].
  - exfalso. simpl in O2. destruct n2; [lia|discriminate].
  - exfalso. destruct O1. destruct s1; [congruence|discriminate].
  - (* texts *)
    destruct O1 as [O1 O1'], O2 as [O2 O2'].
    destruct (Nat.eqb_spec (length s1) (length s2)) as [E|E].
    { destruct (app_split _ _ _ _ _ HT) as [w [H1 H2]]; [lia|].
      assert (w = []) by (apply length_zero_iff_nil; apply (f_equal (@length N)) in H1;
                          rewrite app_length in H1; lia).
      subst w. rewrite app_nil_r in H1. subst s2. simpl in H2.
      destruct (IH q1 (S i1) st1 q2 (S i2) st2) as [ms [-> [M1 [M2 M3]]]]; auto; [lia|].
      exists (MTok (TText s1) :: ms). split; auto. split; [constructor; simpl; auto|].
      split; simpl; now apply obs_cons. }
    destruct (Nat.ltb_spec (length s1) (length s2)) as [L|L].
    + destruct (app_split _ _ _ _ _ HT) as [w [H1 H2]]; [lia|]. subst s2.
      rewrite skipn_app_len. rewrite app_length in *.
      assert (s1 <> []) by auto. assert (0 < length s1) by (destruct s1; [congruence|simpl; lia]).
      destruct (IH q1 (S i1) st1 (TText w :: q2) i2 st2) as [ms [-> [M1 [M2 M3]]]]; auto.
      { simpl. lia. }
      { constructor; auto. split.
        - intros ->. simpl in L. lia.
        - intro. apply O2'. apply in_or_app. auto. }
      exists (MTok (TText s1) :: ms). split; auto. split; [constructor; simpl; auto|].
      split; simpl; [now apply obs_cons | now apply obs_text].
    + symmetry in HT. destruct (app_split _ _ _ _ _ HT) as [w [H1 H2]]; [lia|]. subst s1.
      rewrite skipn_app_len. rewrite app_length in *.
      assert (0 < length s2) by (destruct s2; [congruence|simpl; lia]).
      destruct (IH (TText w :: q1) i1 st1 q2 (S i2) st2) as [ms [-> [M1 [M2 M3]]]]; auto.
      { simpl. lia. }
      { constructor; auto. split.
        - intros ->. simpl in E. lia.
        - intro. apply O1'. apply in_or_app. auto. }
      exists (MTok (TText s2) :: ms). split; auto. split; [constructor; simpl; auto|].
      split; simpl; [now apply obs_text | now apply obs_cons].
  - exfalso. destruct O1 as [O1 O1']. simpl in O2. destruct s1 as [|c s1]; [congruence|].
    destruct n2; [lia|]. simpl in HT. injection HT as H _. apply O1'. left. exact H.
  - exfalso. simpl in O1. destruct n1; [lia|discriminate].
  - exfalso. destruct O2 as [O2 O2']. simpl in O1. destruct s2 as [|c s2]; [congruence|].
    destruct n1; [lia|]. simpl in HT. injection HT as H _. apply O2'. left. auto.
  - (* newlines *)
    simpl in O1, O2. destruct (Nat.eqb_spec n1 n2) as [E|E].
    { subst n2. apply app_inv_head in HT.
      destruct (IH q1 (S i1) st1 q2 (S i2) st2) as [ms [-> [M1 [M2 M3]]]]; auto; [lia|].
      exists (MTok (TNewline n1) :: ms). split; auto. split; [constructor; simpl; auto|].
      split; simpl; now apply obs_cons. }
    destruct (Nat.ltb_spec n1 n2) as [L|L].
    + apply repeat_app_inv in HT; [|lia].
      destruct (IH q1 (S i1) st1 (TNewline (n2 - n1) :: q2) i2 st2) as [ms [-> [M1 [M2 M3]]]]; auto.
      { simpl. lia. } { constructor; auto. simpl. lia. }
      exists (MTok (TNewline n1) :: ms). split; auto. split; [constructor; simpl; auto|].
      split; simpl; [now apply obs_cons|].
      replace n2 with (n1 + (n2 - n1)) at 1 by lia. now apply obs_nl.
    + symmetry in HT. apply repeat_app_inv in HT; [|lia].
      destruct (IH (TNewline (n1 - n2) :: q1) i1 st1 q2 (S i2) st2) as [ms [-> [M1 [M2 M3]]]]; auto.
      { simpl. lia. } { constructor; auto. simpl. lia. }
      exists (MTok (TNewline n2) :: ms). split; auto. split; [constructor; simpl; auto|].
      split; simpl; [|now apply obs_cons].
      replace n1 with (n2 + (n1 - n2)) at 1 by lia. now apply obs_nl.
  - destruct (_ <? _); [now apply B1 | now apply B2].
  - destruct (list_gt st1 st2); [now apply E1 | now apply E2].
Qed.

(** ** Closing and reopening *)
Definition name_of (x : bool * token) : str := match snd x with TBegin s => s | _ => [] end.
Definition names (o : list (bool * token)) : list str := map name_of o.
Definition of_list (i : bool) (o : list (bool * token)) : list (bool * token) :=
  filter (fun x => Bool.eqb (fst x) i) o.
Definition opened_ok (o : list (bool * token)) : Prop :=
  Forall (fun x => exists s, snd x = TBegin s) o.

Lemma close_block_spec : forall i o, of_list i o <> [] -> exists sk t rest,
  close_block i o = Some (sk, rest) /\ o = sk ++ (i, t) :: rest /\ of_list i sk = [].
Proof.
  induction o as [|[j t] o IH]; simpl; intro H; [congruence|].
  destruct (Bool.eqb j i) eqn:E.
  - apply eqb_prop in E. subst. exists [], t, o. auto.
  - destruct (IH H) as [sk [t' [rest [-> [-> Hs]]]]].
    exists ((j, t) :: sk), t', rest. split; auto. split; auto. simpl. now rewrite E.
Qed.

Lemma of_list_app : forall i a b, of_list i (a ++ b) = of_list i a ++ of_list i b.
Proof. intros. apply filter_app. Qed.

Lemma nest_ends : forall k n ts, nest (k + n) (repeat TEnd k ++ ts) = nest n ts.
Proof. induction k; intros n ts; simpl; auto. Qed.
Lemma nest_begins : forall o n ts, opened_ok o ->
  nest n (map snd o ++ ts) = nest (length o + n) ts.
Proof.
  induction o as [|[i t] o IH]; intros n ts H; auto. inversion H as [|? ? [s Hs] Ho]; subst.
  simpl in *. subst t. simpl. rewrite IH; auto. f_equal. lia.
Qed.
Lemma styled_ends : forall k st ts, styled st (repeat TEnd k ++ ts) = styled (skipn k st) ts.
Proof.
  induction k; intros st ts; auto. simpl. change (styled (tl st) (repeat TEnd k ++ ts) = styled (skipn (S k) st) ts).
  rewrite IHk. destruct st; simpl; auto. now rewrite skipn_nil.
Qed.
Lemma styled_begins : forall o st ts, opened_ok o ->
  styled st (map snd o ++ ts) = styled (rev (names o) ++ st) ts.
Proof.
  induction o as [|[i t] o IH]; intros st ts H; auto. inversion H as [|? ? [s Hs] Ho]; subst.
  simpl in *. subst t. change (styled (s :: st) (map snd o ++ ts) = styled ((rev (names o) ++ [s]) ++ st) ts).
  rewrite IH; auto. now rewrite <- app_assoc.
Qed.
Lemma tokens_ends : forall k ts, tokens_to_text (repeat TEnd k ++ ts) = tokens_to_text ts.
Proof. induction k; simpl; auto. Qed.
Lemma tokens_begins : forall o ts, opened_ok o ->
  tokens_to_text (map snd o ++ ts) = tokens_to_text ts.
Proof.
  induction o as [|[i t] o IH]; intros ts H; auto. inversion H as [|? ? [s Hs] Ho]; subst.
  simpl in *. subst t. simpl. auto.
Qed.

Lemma opened_ok_close : forall sk x rest, opened_ok (sk ++ x :: rest) ->
  opened_ok sk /\ opened_ok rest /\ opened_ok (sk ++ rest).
Proof.
  unfold opened_ok. intros sk x rest H. apply Forall_app in H. destruct H as [H1 H2].
  inversion H2; subst. split; auto. split; auto. apply Forall_app. auto.
Qed.

Lemma merge_loop_spec : forall ms o, Forall item_ok ms -> opened_ok o ->
  (forall i, nest (length (of_list i o)) (proj i ms) = Some 0) ->
  exists r, merge_loop ms o = Ok r /\ nest (length o) r = Some 0 /\
    tokens_to_text r = tokens_to_text (proj true ms) /\ Forall pre_ok r.
Proof.
  induction ms as [|m ms IH]; intros o Hi Ho Hn.
  - assert (H1 := Hn true). assert (H2 := Hn false). simpl in H1, H2.
    exists []. destruct o as [|[[|] t] o]; simpl in *; try discriminate. repeat split; auto.
  - inversion Hi as [|? ? Hm Hms]; subst. destruct m as [t|i t].
    + destruct (IH o Hms Ho) as [r [Hr [H1 [H2 H3]]]].
      { intro i. specialize (Hn i). simpl in Hn. destruct t; auto; destruct Hm. }
      exists (t :: r). cbn [merge_loop]. rewrite Hr. cbn [rbind]. split; auto.
      destruct t as [s|n|s|]; simpl in *; try tauto.
      * split; auto. split; [now rewrite H2|]. constructor; simpl; tauto.
      * split; auto. split; [now rewrite H2|]. constructor; auto.
    + destruct t as [s|n|s|]; simpl in Hm; try tauto.
      * (* begin *)
        destruct (IH ((i, TBegin s) :: o) Hms) as [r [Hr [H1 [H2 H3]]]].
        { constructor; auto. exists s. auto. }
        { intro j. specialize (Hn j). simpl in *. destruct (Bool.eqb i j); simpl; auto. }
        exists (TBegin s :: r). cbn [merge_loop]. rewrite Hr. cbn [rbind]. split; auto.
        split; auto. split; [simpl; destruct (Bool.eqb i true); exact H2|].
        constructor; auto; exact I.
      * (* end *)
        assert (Hne : of_list i o <> []).
        { specialize (Hn i). simpl in Hn. rewrite eqb_reflx in Hn. intro E. rewrite E in Hn.
          discriminate. }
        destruct (close_block_spec _ _ Hne) as [sk [t [rest [Hc [Eo Hs]]]]].
        rewrite Eo in Ho. destruct (opened_ok_close _ _ _ Ho) as [O1 [O2 O3]].
        destruct (IH (sk ++ rest) Hms O3) as [r [Hr [H1 [H2 H3]]]].
        { intro j. specialize (Hn j). rewrite Eo in Hn. rewrite of_list_app in *.
          simpl in Hn. destruct (Bool.eqb i j) eqn:E.
          - apply eqb_prop in E. subst j. rewrite Hs in *. simpl in *. exact Hn.
          - exact Hn. }
        exists (repeat TEnd (S (length sk)) ++ map snd sk ++ r).
        cbn [merge_loop]. rewrite Hc, Hr. cbn [rbind]. split; auto. split; [|split].
        -- rewrite Eo, app_length. cbn [length].
           replace (length sk + S (length rest)) with (S (length sk) + length rest) by lia.
           rewrite nest_ends, nest_begins; auto. now rewrite <- app_length.
        -- rewrite tokens_ends, tokens_begins; auto. simpl. destruct (Bool.eqb i true); auto.
        -- apply Forall_app. split; [apply Forall_forall; intros x Hx; apply repeat_spec in Hx;
             subst; exact I|]. apply Forall_app. split; auto.
           apply Forall_map. eapply Forall_impl; [|exact O1]. intros [j x] [s Hx]. simpl in *.
           subst. exact I.
Qed.

(** At most one block is reopened at a time. *)
Fixpoint calm (ms : list mitem) (o : list (bool * token)) : Prop :=
  match ms with
  | [] => True
  | MTok _ :: ms' => calm ms' o
  | MBlock i TEnd :: ms' =>
      match close_block i o with
      | Some (sk, rest) => length sk <= 1 /\ calm ms' (sk ++ rest)
      | None => False
      end
  | MBlock i t :: ms' => calm ms' ((i, t) :: o)
  end.

Lemma joined_text : forall s st st1 st2 l l1 l2, shuffle st1 st2 st -> joined l l1 l2 ->
  joined (styled_text st s ++ l) (styled_text st1 s ++ l1) (styled_text st2 s ++ l2).
Proof.
  induction s as [|c s IH]; intros; simpl; auto. constructor; [|apply IH; auto].
  destruct (N.eqb c 10); auto. constructor.
Qed.
Lemma joined_nl : forall n l l1 l2, joined l l1 l2 ->
  joined (repeat (10%N, []) n ++ l) (repeat (10%N, []) n ++ l1) (repeat (10%N, []) n ++ l2).
Proof. induction n; intros; simpl; auto. constructor; [constructor|auto]. Qed.

Lemma shuffle_names : forall o,
  shuffle (names (of_list true o)) (names (of_list false o)) (names o).
Proof.
  induction o as [|[[|] t] o IH]; simpl; [constructor| |]; constructor; exact IH.
Qed.

Lemma merge_loop_styles : forall ms o r, Forall item_ok ms -> opened_ok o ->
  merge_loop ms o = Ok r -> calm ms o ->
  joined (styled (names o) r) (styled (names (of_list true o)) (proj true ms))
    (styled (names (of_list false o)) (proj false ms)).
Proof.
  induction ms as [|m ms IH]; intros o r Hi Ho Hr Hc.
  - destruct o; [|discriminate]. injection Hr as <-. constructor.
  - inversion Hi as [|? ? Hm Hms]; subst. destruct m as [t|i t].
    + cbn [merge_loop] in Hr. destruct (merge_loop ms o) as [r'|] eqn:E; [|discriminate].
      injection Hr as <-. specialize (IH o r' Hms Ho E Hc). cbn [proj].
      destruct t as [s|n|s|]; simpl in Hm; try tauto.
      * rewrite !styled_text_cons. apply joined_text; auto. apply shuffle_names.
      * rewrite !styled_nl_cons. now apply joined_nl.
    + destruct t as [s|n|s|]; simpl in Hm; try tauto.
      * cbn [merge_loop] in Hr. destruct (merge_loop ms _) as [r'|] eqn:E; [|discriminate].
        injection Hr as <-. simpl in Hc.
        assert (Ho' : opened_ok ((i, TBegin s) :: o)) by (constructor; auto; exists s; auto).
        specialize (IH _ r' Hms Ho' E Hc). cbn [proj].
        change (styled (names o) (TBegin s :: r')) with (styled (s :: names o) r').
        destruct i; exact IH.
      * cbn [merge_loop calm] in Hr, Hc. destruct (close_block i o) as [[sk rest]|] eqn:Ec; [|tauto].
        destruct Hc as [Hl Hc].
        destruct (merge_loop ms (sk ++ rest)) as [r'|] eqn:E; [|discriminate].
        assert (r = repeat TEnd (S (length sk)) ++ map snd sk ++ r')
          by (cbv [rbind] in Hr; congruence). subst r.
        assert (Hne : of_list i o <> []).
        { clear - Ec. intro H. revert sk rest Ec. induction o as [|[j t] o IH]; intros sk rest Ec;
            simpl in *; [discriminate|]. destruct (Bool.eqb j i) eqn:E; [discriminate|].
          destruct (close_block i o) as [[a b]|]; [|discriminate]. eapply IH; eauto. }
        destruct (close_block_spec _ _ Hne) as [sk' [t [rest' [Hcb [Eo Hs]]]]].
        rewrite Hcb in Ec. injection Ec as -> ->.
        rewrite Eo in Ho. destruct (opened_ok_close _ _ _ Ho) as [O1 [O2 O3]].
        specialize (IH _ r' Hms O3 E Hc).
        rewrite styled_ends, styled_begins; auto.
        assert (EN : rev (names sk) ++ skipn (S (length sk)) (names o) = names (sk ++ rest)).
        { rewrite Eo. unfold names. rewrite !map_app.
          replace (S (length sk)) with (length (map name_of sk ++ [name_of (i, t)]))
            by (rewrite app_length, map_length; simpl; lia).
          simpl map. change (name_of (i, t) :: map name_of rest) with
            ([name_of (i, t)] ++ map name_of rest).
          rewrite (app_assoc (map name_of sk)), skipn_app_len. f_equal.
          destruct sk as [|x [|y sk]]; simpl in *; auto; lia. }
        rewrite EN. rewrite of_list_app in IH. rewrite of_list_app in IH.
        rewrite Eo, !of_list_app. cbn [proj of_list filter fst].
        destruct i; simpl Bool.eqb; cbn iota.
        -- rewrite Hs in *. simpl app in *.
           change (styled (names ((true, t) :: of_list true rest)) (TEnd :: proj true ms))
             with (styled (names (of_list true rest)) (proj true ms)).
           exact IH.
        -- rewrite Hs in *. simpl app in *.
           change (styled (names ((false, t) :: of_list false rest)) (TEnd :: proj false ms))
             with (styled (names (of_list false rest)) (proj false ms)).
           exact IH.
Qed.

Lemma of_list_length : forall o, length o = length (of_list true o) + length (of_list false o).
Proof. induction o as [|[[|] t] o IH]; simpl; auto; lia. Qed.

Lemma flat_calm : forall ms o, Forall item_ok ms ->
  (forall i, nest (length (of_list i o)) (proj i ms) = Some 0) ->
  (forall i, length (of_list i o) <= 1 /\ flat (1 <=? length (of_list i o)) (proj i ms)) ->
  calm ms o.
Proof.
  induction ms as [|m ms IH]; intros o Hi Hn Hf; [exact I|].
  inversion Hi as [|? ? Hm Hms]; subst. destruct m as [t|i t].
  - cbn [calm]. apply IH; auto; intro i; specialize (Hn i); specialize (Hf i); cbn [proj] in *;
      destruct t; simpl in Hm; try tauto; simpl in *; auto.
  - destruct t as [s|n|s|]; simpl in Hm; try tauto.
    + cbn [calm]. apply IH; auto; intro j; specialize (Hn j); specialize (Hf j); cbn [proj] in *;
        simpl of_list; destruct (Bool.eqb i j); auto.
      simpl in Hf. destruct Hf as [H1 [H2 H3]].
      destruct (of_list j o) as [|x o'] eqn:E; simpl in H2; [|destruct o'; discriminate].
      simpl. auto.
    + cbn [calm].
      assert (Hne : of_list i o <> []).
      { specialize (Hn i). simpl in Hn. rewrite eqb_reflx in Hn. intro E. rewrite E in Hn.
        discriminate. }
      destruct (close_block_spec _ _ Hne) as [sk [t [rest [-> [Eo Hs]]]]]. split.
      * rewrite (of_list_length sk). destruct (Hf (negb i)) as [H1 _].
        rewrite Eo, of_list_app, app_length in H1. destruct i; simpl negb in H1; rewrite Hs; simpl; lia.
      * apply IH; auto.
        -- intro j. specialize (Hn j). rewrite Eo in Hn. rewrite of_list_app in *.
           simpl in Hn. destruct (Bool.eqb i j) eqn:E.
           ++ apply eqb_prop in E. subst j. rewrite Hs in *. simpl in *. exact Hn.
           ++ exact Hn.
        -- intro j. specialize (Hf j). rewrite Eo in Hf. rewrite of_list_app in *.
           simpl in Hf. destruct (Bool.eqb i j) eqn:E.
           ++ apply eqb_prop in E. subst j. rewrite Hs in *. simpl in *. destruct Hf as [H1 H2].
              fold (of_list i rest) in *.
              destruct (of_list i rest); simpl in *; [auto|lia].
           ++ exact Hf.
Qed.

Lemma tokens_merge_spec : forall t1 t2, clean t1 -> clean t2 -> balanced t1 -> balanced t2 ->
  tokens_to_text t1 = tokens_to_text t2 ->
  exists m, tokens_merge t1 t2 = Ok m /\ balanced m /\ tidy m /\
    (exists k, tokens_to_text t1 = tokens_to_text m ++ repeat 10%N k) /\
    (flat false t1 -> flat false t2 -> exists k,
       joined (styled [] m ++ repeat (10%N, []) k) (styled [] t1) (styled [] t2)).
Proof.
  intros t1 t2 C1 C2 B1 B2 HT. unfold tokens_merge.
  destruct (merge_helper_spec (S (size t1 + size t2)) t1 0 [] t2 0 []) as
    [ms [-> [Hi [P1 P2]]]]; auto. cbn [rbind].
  assert (Hn : forall i, nest (length (of_list i [])) (proj i ms) = Some 0).
  { intros [|]; simpl; [destruct P1 as [_ [-> _]] | destruct P2 as [_ [-> _]]]; auto. }
  destruct (merge_loop_spec ms [] Hi (Forall_nil _) Hn) as [r [Hr [N1 [T1 O1]]]].
  rewrite Hr. cbn [rbind]. destruct (normalize_spec r 0 O1 N1) as [m [Hm [Bm [Tm Em]]]].
  exists m. split; auto. split; auto. split; auto.
  assert (ET : tokens_to_text r = tokens_to_text t1).
  { rewrite T1, <- (plain_text (proj true ms)), <- (plain_text t1). unfold plain.
    destruct P1 as [-> _]. reflexivity. }
  destruct (Em []) as [[k Ek] _].
  assert (ES : styled [] r = styled [] m ++ repeat (10%N, []) k).
  { unfold styled. rewrite Ek, chars_app, chars_repeat. reflexivity. }
  split.
  - exists k. rewrite <- ET, <- (plain_text r), <- (plain_text m). unfold plain.
    rewrite ES, map_app. f_equal. clear. induction k; simpl; congruence.
  - intros F1 F2. exists k. rewrite <- ES. destruct P1 as [S1 [_ L1]], P2 as [S2 [_ L2]].
    rewrite <- S1, <- S2.
    assert (Hc : calm ms []).
    { apply flat_calm; auto. intros [|]; simpl; split; auto; [apply L1|apply L2]; auto. }
    exact (merge_loop_styles ms [] r Hi (Forall_nil _) Hr Hc).
Qed.
