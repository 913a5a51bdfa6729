(** Proofs about texts: normalisation and parsing. *)
From Coq Require Import List ZArith NArith Bool Arith Lia.
From Verif Require Import Py PyFacts TextModel TextSpec.
Import ListNotations.

(** ** Reading tokens *)
Lemma events_app : forall a st b, events st (a ++ b) = events st a ++ events (after st a) b.
Proof.
  induction a as [|[s|n|s|] a IH]; intros st b; simpl; auto.
  - rewrite IH, app_assoc; auto.
  - rewrite IH, app_assoc; auto.
  - now rewrite IH.
Qed.
Lemma after_app : forall a st b, after st (a ++ b) = after (after st a) b.
Proof. induction a as [|[s|n|s|] a IH]; intros st b; simpl; auto. Qed.

Lemma nest_app : forall a n b, nest n (a ++ b) =
  match nest n a with Some k => nest k b | None => None end.
Proof.
  induction a as [|[s|k|s|] a IH]; intros n b; simpl; auto. destruct n; auto.
Qed.

Lemma chars_app : forall a b, chars (a ++ b) = chars a ++ chars b.
Proof. induction a as [|[c s|s] a IH]; intro b; simpl; auto. now rewrite IH. Qed.

Lemma styled_app : forall a st b, styled st (a ++ b) = styled st a ++ styled (after st a) b.
Proof. intros. unfold styled. now rewrite events_app, chars_app. Qed.

(** ** normalize_tokens *)
Definition same (a b : list token) : Prop :=
  (forall st, events st a = events st b) /\ (forall n, nest n a = nest n b).

Lemma same_refl : forall a, same a a.
Proof. split; auto. Qed.
Lemma same_trans : forall a b c, same a b -> same b c -> same a c.
Proof.
  intros a b c [H1 H2] [H3 H4]. split; intros; [rewrite H1; auto|rewrite H2; auto].
Qed.
Lemma same_sym : forall a b, same a b -> same b a.
Proof. intros a b [H1 H2]. split; auto. Qed.

Lemma same_pre : forall p a b, same a b -> same (p ++ a) (p ++ b).
Proof.
  intros p a b [H1 H2]. split; intros.
  - now rewrite !events_app, H1.
  - rewrite !nest_app. destruct (nest n p); auto.
Qed.

Lemma normalize_same : forall ts res r, normalize_loop ts res = Ok r ->
  same (rev r) (rev res ++ ts).
Proof.
  induction ts as [|t ts IH]; intros res r H.
  - simpl in H. injection H as <-. rewrite app_nil_r. apply same_refl.
  - assert (P : normalize_loop ts (t :: res) = Ok r -> same (rev r) (rev res ++ t :: ts)).
    { intro H'. apply IH in H'. simpl in H'. rewrite <- app_assoc in H'. exact H'. }
    destruct t as [[|c s]|v|s|].
    + simpl in H. apply IH in H. eapply same_trans; [exact H|]. apply same_pre.
      split; reflexivity.
    + apply P. exact H.
    + cbn [normalize_loop] in H. destruct res as [|[s|u|s|] res']; try (apply P; exact H).
      apply IH in H. eapply same_trans; [exact H|]. simpl rev. rewrite <- !app_assoc.
      apply same_pre. split; intros; simpl; auto. now rewrite repeat_app, app_assoc.
    + apply P. exact H.
    + cbn [normalize_loop] in H. destruct res as [|[s|u|s|] res']; try (apply P; exact H);
        try discriminate.
      apply IH in H. eapply same_trans; [exact H|]. simpl rev. rewrite <- !app_assoc.
      apply same_pre. split; intros; simpl; auto.
Qed.

Lemma normalize_ok : forall ts res k, nest 0 (rev res ++ ts) = Some k ->
  exists r, normalize_loop ts res = Ok r.
Proof.
  induction ts as [|t ts IH]; intros res k H; [exists res; auto|].
  assert (P : forall res', same (rev res' ++ ts) (rev res ++ t :: ts) ->
              exists r, normalize_loop ts res' = Ok r).
  { intros res' [_ S]. apply (IH res' k). now rewrite S. }
  assert (P0 : exists r, normalize_loop ts (t :: res) = Ok r).
  { apply P. simpl. rewrite <- app_assoc. apply same_refl. }
  destruct t as [[|c s]|v|s|]; cbn [normalize_loop]; auto.
  - apply P. apply same_pre. split; reflexivity.
  - destruct res as [|[s|u|s|] res']; auto.
    apply P. simpl rev. rewrite <- !app_assoc.
    apply same_pre. split; intros; simpl; auto. now rewrite repeat_app, app_assoc.
  - destruct res as [|[s|u|s|] res']; auto.
    + simpl in H. discriminate.
    + apply P. simpl rev. rewrite <- !app_assoc.
      apply same_pre. split; intros; simpl; auto.
Qed.

(** The shape of the reversed result. *)
Fixpoint tidyr (res : list token) : Prop :=
  match res with
  | x :: ((y :: _) as r) =>
      (is_newline y = true -> x <> TEnd /\ is_newline x = false) /\ tidyr r
  | _ => True
  end.

Definition pre_ok (t : token) : Prop :=
  match t with TText s => ~ In 10%N s | TNewline n => 1 <= n | _ => True end.

Lemma tidyr_cons : forall x r, tidyr r ->
  (match r with y :: _ => is_newline y = true -> x <> TEnd /\ is_newline x = false | [] => True end)
  -> tidyr (x :: r).
Proof. intros x [|y r] H1 H2; simpl; auto. Qed.
Lemma tidyr_tl : forall x r, tidyr (x :: r) -> tidyr r.
Proof. intros x [|y r] H; simpl in *; tauto. Qed.

Lemma normalize_tidyr : forall ts res r, normalize_loop ts res = Ok r ->
  Forall pre_ok ts -> clean res -> tidyr res -> clean r /\ tidyr r.
Proof.
  induction ts as [|t ts IH]; intros res r H Ho Hc Ht.
  - simpl in H. injection H as <-. auto.
  - inversion Ho as [|? ? Ot Ots]; subst. destruct t as [[|c s]|v|s|]; cbn [normalize_loop] in H.
    + eapply IH; eauto.
    + eapply IH; eauto.
      * constructor; auto. split; [discriminate|exact Ot].
      * apply tidyr_cons; auto. destruct res; auto. intros _. split; [discriminate|reflexivity].
    + destruct res as [|[s|u|s|] res'].
      * eapply IH; eauto. constructor; auto.
      * eapply IH; eauto; [constructor; auto|]. apply tidyr_cons; auto. discriminate.
      * inversion Hc as [|? ? Hu Hc']; subst. eapply IH; eauto.
        -- constructor; auto. simpl in *. lia.
        -- apply tidyr_cons; [eapply tidyr_tl; eauto|]. destruct res' as [|y res']; auto.
           destruct Ht as [Ht _]. intro Hy. destruct (Ht Hy). discriminate.
      * eapply IH; eauto; [constructor; auto|]. apply tidyr_cons; auto. discriminate.
      * eapply IH; eauto; [constructor; auto|]. apply tidyr_cons; auto. discriminate.
    + eapply IH; eauto; [constructor; auto; exact I|].
      apply tidyr_cons; auto. destruct res; auto. intros _. split; [discriminate|reflexivity].
    + destruct res as [|[s|u|s|] res']; try discriminate.
      * eapply IH; eauto; [constructor; auto; exact I|]. apply tidyr_cons; auto. discriminate.
      * inversion Hc as [|? ? Hu Hc']; subst. eapply IH; eauto.
        -- constructor; auto; constructor; auto; exact I.
        -- apply tidyr_cons; [|discriminate].
           apply tidyr_cons; [eapply tidyr_tl; eauto|]. destruct res' as [|y res']; auto.
           destruct Ht as [Ht _]. intro Hy. destruct (Ht Hy). discriminate.
      * eapply IH; eauto; [constructor; auto; exact I|]. apply tidyr_cons; auto. discriminate.
      * eapply IH; eauto; [constructor; auto; exact I|]. apply tidyr_cons; auto. discriminate.
Qed.

Lemma tidyr_pair : forall a y x b, tidyr (a ++ x :: y :: b) -> is_newline y = true ->
  x <> TEnd /\ is_newline x = false.
Proof.
  induction a as [|z a IH]; intros y x b H Hy.
  - destruct H as [H _]. auto.
  - simpl app in H. apply tidyr_tl in H. eapply IH; eauto.
Qed.

Lemma tidyr_tidy : forall r, clean r -> tidyr r ->
  (forall n r', r <> TNewline n :: r') -> tidy (rev r).
Proof.
  intros r Hc Ht Hn. split; [|split].
  - apply Forall_rev. exact Hc.
  - intros a n u b H. assert (E : r = rev b ++ u :: TNewline n :: rev a).
    { rewrite <- (rev_involutive r), H, rev_app_distr. simpl. now rewrite <- !app_assoc. }
    rewrite E in Ht. destruct (tidyr_pair _ _ _ _ Ht eq_refl) as [H1 H2].
    split; auto. intros m ->. discriminate.
  - intros a n H. apply (Hn n (rev a)).
    rewrite <- (rev_involutive r), H, rev_app_distr. reflexivity.
Qed.

Lemma events_ends : forall ts st a, clean ts -> events st ts = a ++ [break] ->
  exists b n c, ts = b ++ TNewline n :: c /\ Forall (fun t => t = TEnd) c.
Proof.
  induction ts as [|t ts IH] using rev_ind; intros st a Hc H.
  - destruct a; discriminate.
  - rewrite events_app in H. apply Forall_app in Hc. destruct Hc as [Hc Ht].
    inversion Ht as [|? ? Ht' _]; subst. destruct t as [s|n|s|]; simpl in H.
    + rewrite app_nil_r in H. destruct Ht' as [Hs Hn].
      destruct (exists_last Hs) as [s' [c ->]]. rewrite map_app, app_assoc in H.
      apply app_inj_tail in H. destruct H as [_ H]. unfold seen, break in H.
      destruct (N.eqb_spec c 10) as [->|Hne]; [|injection H; congruence]. exfalso. apply Hn.
      apply in_or_app. right. now left.
    + exists ts, n, []. auto.
    + apply app_inj_tail in H. destruct H. discriminate.
    + rewrite app_nil_r in H. destruct (IH _ _ Hc H) as [b [n [c [-> Hf]]]].
      exists b, n, (c ++ [TEnd]). rewrite <- app_assoc. split; auto. apply Forall_app. auto.
Qed.

Lemma tidy_events : forall ts st a, tidy ts -> events st ts <> a ++ [break].
Proof.
  intros ts st a [Hc [Hp Hn]] H. destruct (events_ends _ _ _ Hc H) as [b [n [c [-> Hf]]]].
  destruct c as [|t c].
  - apply (Hn b n). reflexivity.
  - inversion Hf; subst. destruct (Hp b n TEnd c eq_refl). congruence.
Qed.

Lemma normalize_spec : forall ts k, Forall pre_ok ts -> nest 0 ts = Some k ->
  exists r, normalize_tokens ts = Ok r /\ nest 0 r = Some k /\ tidy r /\
    forall st, without_trailing break (events st ts) (events st r).
Proof.
  intros ts k Ho Hk. destruct (normalize_ok ts [] k Hk) as [r Hr].
  destruct (normalize_same _ _ _ Hr) as [He Hn]. simpl in He, Hn.
  destruct (normalize_tidyr _ _ _ Hr Ho) as [Hc Ht]; [constructor | exact I|].
  unfold normalize_tokens. rewrite Hr. cbn [rbind].
  set (r' := match r with TNewline _ :: q => q | _ => r end).
  assert (Hr' : tidy (rev r')).
  { apply tidyr_tidy.
    - subst r'. destruct r as [|[s|n|s|] r]; auto. now inversion Hc.
    - subst r'. destruct r as [|[s|n|s|] r]; auto. eapply tidyr_tl; eauto.
    - subst r'. intros n q E. destruct r as [|[s|m|s|] r]; try discriminate.
      destruct r as [|y r]; try discriminate. injection E as -> ->.
      destruct Ht as [Ht _]. destruct (Ht eq_refl). discriminate. }
  exists (rev r'). split; auto. split; [|split; auto].
  - rewrite <- Hk, <- Hn. subst r'. destruct r as [|[s|n|s|] r]; auto.
    simpl. rewrite nest_app. destruct (nest 0 (rev r)); auto.
  - intro st. split; [|intros l; now apply tidy_events].
    rewrite <- He. subst r'. destruct r as [|[s|n|s|] r].
    1,2,4,5: exists 0; cbn [repeat]; now rewrite app_nil_r.
    exists n. simpl. rewrite events_app. simpl. now rewrite app_nil_r.
Qed.

(** ** Splitting at newlines *)
Lemma split_on_cons : forall c s, exists l ls, split_on c s = l :: ls.
Proof.
  intros c [|x s]; simpl; eauto. destruct (N.eqb x c); eauto.
  destruct (split_on c s); eauto.
Qed.

Lemma split_on_no : forall c s, Forall (fun l => ~ In c l) (split_on c s).
Proof.
  induction s as [|x s IH]; simpl; [repeat constructor; auto|].
  destruct (N.eqb_spec x c); [constructor; auto|].
  destruct (split_on c s) as [|l ls]; inversion IH; subst; repeat constructor; auto;
    intros [H|H]; auto.
Qed.

Lemma split_token_same : forall t, same (split_token t) [t].
Proof.
  intros [s|n|s|]; try apply same_refl. simpl. induction s as [|x s IH].
  - simpl. split; reflexivity.
  - cbn [split_on]. destruct (split_on_cons nl s) as [l [ls E]]. rewrite E in *.
    destruct IH as [H1 H2]. split.
    + intro st. specialize (H1 st). simpl in *. rewrite app_nil_r in *.
      destruct (N.eqb_spec x nl) as [->|Hx]; simpl.
      * unfold seen at 1. simpl. f_equal. exact H1.
      * f_equal. exact H1.
    + intro n. specialize (H2 n). simpl in *.
      destruct (N.eqb_spec x nl) as [->|Hx]; simpl; auto.
Qed.


Lemma split_token_after : forall t st, after st (split_token t) = after st [t].
Proof.
  intros [s|n|s|] st; auto. simpl. destruct (split_on_cons nl s) as [l [ls ->]]. simpl.
  induction ls as [|x ls IH]; simpl; auto.
Qed.

Lemma split_tokens_same : forall ts, same (flat_map split_token ts) ts.
Proof.
  induction ts as [|t ts [H1 H2]]; [apply same_refl|]. simpl.
  destruct (split_token_same t) as [H3 H4]. split; intros.
  - rewrite events_app, H3, split_token_after, H1.
    change (t :: ts) with ([t] ++ ts). now rewrite events_app.
  - rewrite nest_app, H4. change (t :: ts) with ([t] ++ ts). rewrite nest_app.
    destruct (nest n [t]); auto.
Qed.

Lemma split_tokens_ok : forall ts, (forall n, ~ In (TNewline n) ts) ->
  Forall pre_ok (flat_map split_token ts).
Proof.
  induction ts as [|t ts IH]; intro H; simpl; auto. apply Forall_app. split.
  - destruct t as [s|n|s|]; simpl; try (repeat constructor; fail).
    + assert (Hs := split_on_no nl s). destruct (split_on nl s) as [|l ls]; auto.
      inversion Hs as [|? ? Hl Hls]; subst. constructor; auto.
      clear - Hls. induction Hls; simpl; repeat constructor; auto.
    + exfalso. apply (H n). now left.
  - apply IH. intros n Hn. apply (H n). now right.
Qed.

(** ** The scanner *)
Section Scan.
  Variables (esc : option char) (b e : char).
  Notation scan := (scan esc b e).

  Lemma scan_no_newline : forall s k name buf n, ~ In (TNewline n) (fst (scan k name buf s)).
  Proof.
    induction s as [|c s IH]; intros k name buf n; cbn [TextModel.scan].
    - destruct name; simpl; [intros [H|[]]; discriminate|].
      destruct buf; simpl; [auto|]. intros [H|[]]; discriminate.
    - destruct name.
      + destruct (N.eqb c b); [|apply IH].
        specialize (IH (S k) false [] n). destruct (scan (S k) false [] s).
        simpl in *. intros [H|H]; [discriminate|auto].
      + destruct (is_char esc c).
        { specialize (IH k true [] n). destruct (scan k true [] s).
          simpl in *. intros [H|H]; [discriminate|auto]. }
        destruct (N.eqb c e && (1 <=? k)); [|apply IH].
        specialize (IH (k - 1) false [] n). destruct (scan (k - 1) false [] s).
        simpl in *. intros [H|[H|H]]; try discriminate; auto.
  Qed.

  Lemma scan_nest : forall s k name buf, nest k (fst (scan k name buf s)) =
    Some (snd (scan k name buf s)).
  Proof.
    induction s as [|c s IH]; intros k name buf; cbn [TextModel.scan].
    - destruct name; simpl; auto. destruct buf; auto.
    - destruct name.
      + destruct (N.eqb c b); [|apply IH].
        specialize (IH (S k) false []). destruct (scan (S k) false [] s). exact IH.
      + destruct (is_char esc c).
        { specialize (IH k true []). destruct (scan k true [] s). exact IH. }
        destruct (N.eqb c e && (1 <=? k)) eqn:E; [|apply IH].
        apply andb_prop in E. destruct E as [_ E]. apply Nat.leb_le in E.
        specialize (IH (k - 1) false []). destruct (scan (k - 1) false [] s).
        simpl in *. destruct k; [lia|]. simpl in IH. now rewrite Nat.sub_0_r in *.
  Qed.
End Scan.

Lemma parse_ok : forall s esc b e ts, parse_text s esc b e = Ok ts ->
  balanced ts /\ tidy ts /\
  snd (scan esc b e 0 false [] s) = 0 /\
  forall st, without_trailing break (events st (fst (scan esc b e 0 false [] s))) (events st ts).
Proof.
  intros s esc b e ts H. unfold parse_text in H.
  assert (Hn := scan_nest esc b e s 0 false []).
  assert (Hw := scan_no_newline esc b e s 0 false []).
  destruct (scan esc b e 0 false [] s) as [raw k]. cbn [fst snd] in *.
  destruct (0 <? k) eqn:E; [discriminate|]. apply Nat.ltb_ge in E.
  assert (k = 0) by lia. subst k.
  destruct (split_tokens_same raw) as [He Hne]. rewrite <- Hne in Hn.
  destruct (normalize_spec _ _ (split_tokens_ok raw Hw) Hn) as [r [Hr [H1 [H2 H3]]]].
  rewrite Hr in H. injection H as <-. split; auto. split; auto. split; auto.
  intro st. rewrite <- He. apply H3.
Qed.

Lemma parse_total : forall s esc b e, snd (scan esc b e 0 false [] s) = 0 ->
  exists ts, parse_text s esc b e = Ok ts.
Proof.
  intros s esc b e H. unfold parse_text.
  assert (Hn := scan_nest esc b e s 0 false []).
  assert (Hw := scan_no_newline esc b e s 0 false []).
  destruct (scan esc b e 0 false [] s) as [raw k]. cbn [fst snd] in *. subst k.
  destruct (split_tokens_same raw) as [He Hne]. rewrite <- Hne in Hn.
  destruct (normalize_spec _ _ (split_tokens_ok raw Hw) Hn) as [r [Hr _]].
  exists r. exact Hr.
Qed.

Lemma parse_err : forall s esc b e x, parse_text s esc b e = Err x ->
  x = EException /\ 0 < snd (scan esc b e 0 false [] s).
Proof.
  intros s esc b e x H. destruct (Nat.eq_dec (snd (scan esc b e 0 false [] s)) 0) as [E|E].
  - destruct (parse_total _ _ _ _ E) as [ts Hts]. congruence.
  - split; [|lia]. unfold parse_text in H.
    destruct (scan esc b e 0 false [] s) as [raw k]. cbn [snd] in *.
    destruct (0 <? k) eqn:E2; [congruence|]. apply Nat.ltb_ge in E2. lia.
Qed.

(** ** Documents *)
Fixpoint doc_ind2 (P : doc -> Prop) (H1 : forall s, P (DText s))
  (H2 : forall n ds, Forall P ds -> P (DStyle n ds)) (d : doc) : P d :=
  match d with
  | DText s => H1 s
  | DStyle n ds => H2 n ds
      ((fix go (l : list doc) : Forall P l :=
          match l with [] => Forall_nil P | x :: l' => Forall_cons x (doc_ind2 P H1 H2 x) (go l') end)
         ds)
  end.

Lemma valid_style : forall esc b e i n ds,
  valid esc b e i (DStyle n ds) <-> ~ In b n /\ valids esc b e true ds.
Proof.
  intros. cbn [valid]. split; intros [H1 H2]; split; auto.
  - induction ds; [constructor|]. destruct H2. constructor; auto. apply IHds; auto.
  - induction H2; simpl; auto.
Qed.

Section Docs.
  Variables esc b e : char.
  Hypothesis Hee : esc <> e.
  Notation scan := (scan (Some esc) b e).
  Notation prints := (prints esc b e).

  Lemma scan_text : forall t k buf rest, ~ In esc t -> (1 <= k -> ~ In e t) ->
    scan k false buf (t ++ rest) = scan k false (rev t ++ buf) rest.
  Proof.
    induction t as [|c t IH]; intros k buf rest H1 H2; auto. cbn [TextModel.scan app is_char].
    destruct (N.eqb_spec c esc); [exfalso; apply H1; now left|].
    destruct (N.eqb_spec c e).
    - subst. destruct (1 <=? k) eqn:E; cbn [andb].
      + apply Nat.leb_le in E. exfalso. apply (H2 E). now left.
      + rewrite IH. { simpl. now rewrite <- app_assoc. }
        { intro; apply H1; now right. } { intros Hk Hi. apply (H2 Hk). now right. }
    - cbn [andb]. rewrite IH. { simpl. now rewrite <- app_assoc. }
        { intro; apply H1; now right. } { intros Hk Hi. apply (H2 Hk). now right. }
  Qed.

  Lemma scan_name : forall t k buf rest, ~ In b t ->
    scan k true buf (t ++ b :: rest) =
    let (ts, n) := scan (S k) false [] rest in (TBegin (rev buf ++ t) :: ts, n).
  Proof.
    induction t as [|c t IH]; intros k buf rest H; cbn [TextModel.scan app].
    - rewrite N.eqb_refl, app_nil_r. reflexivity.
    - destruct (N.eqb_spec c b); [exfalso; apply H; now left|].
      rewrite IH by (intro; apply H; now right). simpl.
      destruct (scan (S k) false [] rest). now rewrite <- app_assoc.
  Qed.

  Lemma rev_buf : forall (A : Type) (t buf : list A), rev (rev t ++ buf) = rev buf ++ t.
  Proof. intros. now rewrite rev_app_distr, rev_involutive. Qed.

  Definition pre_text (buf : str) : list token := [TText (rev buf)].

  Definition scanned (inside : bool) (text : str) (evs : list str -> list event) : Prop :=
    forall k buf rest, (inside = false -> k = 0) -> (inside = true -> 1 <= k) ->
    exists ts buf', scan k false buf (text ++ rest) =
      (let (ts', n) := scan k false buf' rest in (ts ++ ts', n)) /\
      (forall st, after st ts = st) /\
      (forall st, events st (ts ++ [TText (rev buf')]) = events st [TText (rev buf)] ++ evs st).

  Lemma scanned_list : forall i ds,
    Forall (fun d => scanned i (print esc b e d) (fun st => doc_events st d)) ds ->
    scanned i (prints ds) (fun st => docs_events st ds).
  Proof.
    induction ds as [|d ds IH]; intros H k buf rest H0 H1.
    - exists [], buf. simpl. destruct (scan k false buf rest). split; auto. split; auto.
      intro st. now rewrite !app_nil_r.
    - inversion H as [|? ? Hd Hds]; subst. unfold TextSpec.prints. cbn [flat_map].
      rewrite <- app_assoc. destruct (Hd k buf (prints ds ++ rest) H0 H1) as [ts [buf' [E1 [A1 V1]]]].
      destruct (IH Hds k buf' rest H0 H1) as [ts2 [buf2 [E2 [A2 V2]]]].
      exists (ts ++ ts2), buf2. split; [|split].
      + unfold TextSpec.prints in *. rewrite E1, E2. destruct (scan k false buf2 rest). now rewrite app_assoc.
      + intro st. now rewrite after_app, A1.
      + intro st. rewrite <- app_assoc, events_app, A1, V2, app_assoc.
        specialize (V1 st). rewrite events_app, A1 in V1. rewrite V1.
        unfold docs_events. cbn [flat_map]. now rewrite app_assoc.
  Qed.

  Lemma scan_doc : forall d i, valid esc b e i d ->
    scanned i (print esc b e d) (fun st => doc_events st d).
  Proof.
    induction d as [t|n ds IH] using doc_ind2; intros i Hv k buf rest H0 H1.
    - destruct Hv as [Hv1 Hv2]. exists [], (rev t ++ buf). cbn [print].
      rewrite scan_text; auto.
      + destruct (scan k false (rev t ++ buf) rest). split; auto. split; auto.
        intro st. simpl. rewrite rev_buf, map_app, !app_nil_r. reflexivity.
      + intros Hk. apply Hv2. destruct i; auto. specialize (H0 eq_refl). lia.
    - apply valid_style in Hv. destruct Hv as [Hn Hds].
      assert (HL : scanned true (prints ds) (fun st => docs_events st ds)).
      { apply scanned_list. unfold valids in Hds. rewrite Forall_forall in *.
        intros d Hd. apply IH; auto. }
      cbn [print]. simpl. rewrite N.eqb_refl. rewrite <- app_assoc. simpl.
      rewrite scan_name by exact Hn. rewrite <- app_assoc.
      destruct (HL (S k) [] ([e] ++ rest)) as [ts [buf' [E1 [A1 V1]]]].
      { discriminate. } { intros _. lia. }
      unfold TextSpec.prints in E1. rewrite E1. clear E1. simpl.
      destruct (N.eqb_spec e esc); [congruence|]. rewrite N.eqb_refl. cbn [andb].
      rewrite Nat.sub_0_r.
      exists (TText (rev buf) :: TBegin n :: ts ++ [TText (rev buf'); TEnd]), [].
      split; [|split].
      + destruct (scan k false [] rest) as [ts' m].
        simpl. now rewrite <- app_assoc.
      + intro st. simpl. rewrite after_app. simpl. rewrite A1. reflexivity.
      + intro st. simpl. specialize (V1 (n :: st)). rewrite app_nil_r.
        replace ((ts ++ [TText (rev buf'); TEnd]) ++ [TText []])
          with ((ts ++ [TText (rev buf')]) ++ [TEnd; TText []])
          by (rewrite <- !app_assoc; reflexivity).
        rewrite events_app, V1. simpl. rewrite app_nil_r. reflexivity.
  Qed.

  Lemma parse_docs : forall ds, valids esc b e false ds ->
    exists ts, parse_text (prints ds) (Some esc) b e = Ok ts /\
      without_trailing break (docs_events [] ds) (events [] ts).
  Proof.
    intros ds H.
    assert (HS : scanned false (prints ds) (fun st => docs_events st ds)).
    { apply scanned_list. eapply Forall_impl; [|exact H]. intros d Hd. now apply scan_doc. }
    destruct (HS 0 [] []) as [ts0 [buf [E [A V]]]]; auto; [discriminate|].
    rewrite app_nil_r in E. simpl in E.
    assert (E0 : snd (scan 0 false [] (prints ds)) = 0) by (now rewrite E).
    destruct (parse_total _ _ _ _ E0) as [ts Hts]. exists ts. split; auto.
    destruct (parse_ok _ _ _ _ _ Hts) as [_ [_ [_ W]]]. specialize (W []).
    replace (docs_events [] ds) with (events [] (fst (scan 0 false [] (prints ds)))); auto.
    rewrite E. cbn [fst]. specialize (V []). simpl in V. rewrite <- V.
    destruct buf as [|c buf]; auto. rewrite app_nil_r, events_app. simpl. now rewrite app_nil_r.
  Qed.

  (** Completeness: accepted strings are printed documents. *)
  Fixpoint unroll (dss : list (list doc)) : str :=
    match dss with
    | [] => []
    | [ds] => prints ds
    | ds :: dss' => prints ds ++ e :: unroll dss'
    end.
  Fixpoint levels (k : nat) (dss : list (list doc)) : Prop :=
    match k, dss with
    | O, [ds] => valids esc b e false ds
    | S k', ds :: dss' => valids esc b e true ds /\ levels k' dss'
    | _, _ => False
    end.

  Lemma scan_complete : forall s k name buf, snd (scan k name buf s) = 0 ->
    if name then exists n dss, ~ In b n /\ s = n ++ b :: unroll dss /\ levels (S k) dss
    else exists dss, s = unroll dss /\ levels k dss.
  Proof.
    induction s as [|c s IH]; intros k name buf H.
    - destruct name; simpl in H; [discriminate|]. subst k. exists [[]]. split; auto. constructor.
    - cbn [TextModel.scan is_char] in H. destruct name.
      + destruct (N.eqb_spec c b).
        * subst c. specialize (IH (S k) false []). destruct (scan (S k) false [] s) as [ts m].
          simpl in H. destruct (IH H) as [dss [-> HL]]. exists [], dss. auto.
        * destruct (IH k true _ H) as [n' [dss [H1 [-> H2]]]].
          exists (c :: n'), dss. split; auto. intros [Hc|Hc]; auto.
      + destruct (N.eqb_spec c esc) as [->|Hce].
        * specialize (IH k true []). destruct (scan k true [] s) as [ts m].
          simpl in H. destruct (IH H) as [n' [dss [H1 [-> H2]]]].
          destruct dss as [|ds [|ds2 dss]]; simpl in H2; try tauto;
            [destruct k; simpl in H2; tauto|].
          destruct H2 as [H2 H3].
          exists ((DStyle n' ds :: ds2) :: dss). split.
          -- simpl. destruct dss; unfold TextSpec.prints; simpl;
             rewrite <- ?app_assoc; simpl; rewrite <- ?app_assoc; reflexivity.
          -- destruct k; simpl in *.
             ++ destruct dss; [|tauto]. constructor; auto. apply valid_style. auto.
             ++ destruct H3 as [H3 H4]. split; auto. constructor; auto. apply valid_style. auto.
        * assert (Hplain : forall k', k' = k -> snd (scan k false (c :: buf) s) = 0 ->
             (1 <= k -> c <> e) -> exists dss, c :: s = unroll dss /\ levels k dss).
          { intros k' _ Hs Hc. destruct (IH k false _ Hs) as [dss [-> HL]].
            destruct dss as [|ds dss]; [destruct k; simpl in HL; tauto|].
            exists ((DText [c] :: ds) :: dss). split.
            - destruct dss; reflexivity.
            - destruct k; simpl in *.
              + destruct dss; [|tauto]. constructor; auto. simpl. split; [|discriminate].
                intros [?|[]]; congruence.
              + destruct HL as [H3 H4]. split; auto. constructor; auto. simpl. split.
                * intros [?|[]]; congruence.
                * intros _ [Hx|[]]. subst. apply Hc; auto. lia. }
          destruct (N.eqb_spec c e) as [->|Hne].
          -- destruct (1 <=? k) eqn:E; cbn [andb] in H.
             ++ apply Nat.leb_le in E. specialize (IH (k - 1) false []).
                destruct (scan (k - 1) false [] s) as [ts m]. simpl in H.
                destruct (IH H) as [dss [-> HL]]. exists ([] :: dss). split.
                ** destruct dss as [|d dss]; [destruct (k - 1); simpl in HL; tauto|]. reflexivity.
                ** destruct k; [lia|]. simpl in *. rewrite Nat.sub_0_r in HL. split; auto.
                   constructor.
             ++ apply Nat.leb_gt in E. apply (Hplain k); auto. lia.
          -- cbn [andb] in H. apply (Hplain k); auto.
  Qed.

  Lemma parse_complete : forall s ts, parse_text s (Some esc) b e = Ok ts ->
    exists ds, valids esc b e false ds /\ prints ds = s.
  Proof.
    intros s ts H. destruct (parse_ok _ _ _ _ _ H) as [_ [_ [E _]]].
    destruct (scan_complete _ _ _ _ E) as [dss [-> HL]].
    destruct dss as [|ds [|]]; simpl in HL; try tauto. exists ds. auto.
  Qed.
End Docs.
