(** Proofs about texts whose styles all have the same priority, and about the styles of a deck. *)
From Coq Require Import List ZArith NArith QArith Bool String Lia.
From Verif Require Import Py PyFacts TextProofs TextMerge TextLines TextCode StyleModel StyleSpec StyleProofs
  TextModel TextSpec DrawModel DrawSpec ThemeModel.
Import ListNotations.
Local Open Scope nat_scope.

(** A style without a special priority. *)
Definition ordinary (styles : str -> option style) (n : str) : Prop :=
  dummyb n = false /\ exists s, styles n = Some s /\ (prio s == 0)%Q.
Definition style_of (styles : str -> option style) (n : str) : style :=
  match styles n with Some s => s | None => no_args end.

Section Ordinary.
Variable styles : str -> option style.
Variable base : style.
Hypothesis Low : (prio base <= 0)%Q.

Definition around (names : list str) : surroundings := map (fun n => Some (style_of styles n)) names ++ [Some base].
Lemma effective_around : forall names, effective (around names) = map (style_of styles) names ++ [base].
Proof. unfold around. induction names as [|n names IH]; [reflexivity|]. cbn [map app effective flat_map]. now rewrite <- IH. Qed.
Lemma around_effect : forall names n, Forall (ordinary styles) names -> ordinary styles n ->
  effect styles (around names) n = Some (style_of styles n).
Proof.
  intros names n Hf (Hd & s & Hs & P). unfold effect. rewrite Hd, effective_around. unfold style_of. rewrite Hs.
  destruct names as [|m names]; cbn [map app].
  - assert (Q : Qle_bool (prio base) (prio s) = true) by (apply Qle_bool_iff; now rewrite P). now rewrite Q.
  - inversion Hf as [|? ? (_ & t & Ht & Pt) _]; subst. rewrite Ht.
    assert (Q : Qle_bool (prio t) (prio s) = true) by (apply Qle_bool_iff; rewrite P, Pt; apply Qle_refl). now rewrite Q.
Qed.

Definition shown_char (g : char * list str) : bool := negb (N.eqb (fst g) 10).
Lemma filter_text : forall names s, ~ In 10%N s ->
  filter shown_char (styled_text names s) = map (fun c => (c, names)) s.
Proof.
  intros names. induction s as [|c s IH]; intros N; [reflexivity|]. unfold styled_text in *. cbn [map filter]. unfold shown_char at 1.
  cbn [fst]. destruct (N.eqb_spec c 10); [subst; exfalso; apply N; now left|]. cbn [negb]. f_equal. apply IH. intro; apply N; now right.
Qed.
Lemma filter_breaks : forall k, filter shown_char (repeat (10%N, []) k) = [].
Proof. induction k; [reflexivity|exact IHk]. Qed.

Lemma ordinary_glyphs : forall ts names, no_nl ts -> Forall (ordinary styles) names ->
  nest (List.length names) ts <> None -> (forall n, In (TBegin n) ts -> ordinary styles n) ->
  glyphs styles (around names) ts =
  map (fun g : char * list str => (fst g, map (style_of styles) (snd g) ++ [base])) (filter shown_char (styled names ts)).
Proof.
  induction ts as [|t ts IH]; intros names Nl Hf Hn Ho; [reflexivity|].
  assert (Nl' : no_nl ts) by (intros x X; apply Nl; now right).
  assert (Ho' : forall n, In (TBegin n) ts -> ordinary styles n) by (intros x X; apply Ho; now right).
  destruct t as [s|k|n|]; cbn [glyphs nest] in *; unfold styled; cbn [events].
  - rewrite chars_app, chars_seen, filter_app, map_app, filter_text by (apply Nl; now left).
    rewrite map_map. cbn [fst snd]. rewrite effective_around. f_equal. now apply IH.
  - rewrite chars_app, chars_repeat, filter_app, filter_breaks. now apply IH.
  - rewrite around_effect by (auto; apply Ho; now left). cbn [chars].
    apply (IH (n :: names)); auto. constructor; [apply Ho; now left|exact Hf].
  - destruct names as [|n names]; [now destruct Hn|]. cbn [List.length] in Hn. inversion Hf; subst.
    cbn [tl around map app]. now apply IH.
Qed.
Lemma ordinary_regular : forall ts names, Forall (ordinary styles) names -> nest (List.length names) ts <> None ->
  (forall n, In (TBegin n) ts -> ordinary styles n) -> regular styles (around names) ts.
Proof.
  induction ts as [|t ts IH]; intros names Hf Hn Ho; [exact I|].
  assert (Ho' : forall n, In (TBegin n) ts -> ordinary styles n) by (intros x X; apply Ho; now right).
  destruct t as [s|k|n|]; cbn [regular nest] in *.
  - now apply IH.
  - split; [|now apply IH]. intro X. unfold around in X. apply in_app_or in X. destruct X as [X|[X|[]]]; [|discriminate].
    apply in_map_iff in X. destruct X as (m & X & _). discriminate.
  - rewrite around_effect by (auto; apply Ho; now left). apply (IH (n :: names)); auto. constructor; [apply Ho; now left|exact Hf].
  - destruct names as [|n names]; [now destruct Hn|]. inversion Hf; subst. cbn [List.length] in Hn. cbn [around map app tl].
    split; [|now apply IH]. destruct names; exact I.
Qed.
End Ordinary.

(** ** Names of the styles in highlighted code *)
Definition begins (ts : list token) : list str := flat_map (fun t => match t with TBegin n => [n] | _ => [] end) ts.
Lemma begins_in : forall ts n, In (TBegin n) ts <-> In n (begins ts).
Proof.
  intros ts n. unfold begins. rewrite in_flat_map. split.
  - intro H. exists (TBegin n). split; [exact H|now left].
  - intros (t & H & X). destruct t as [s|k|m|]; cbn in X; try (now destruct X). destruct X as [->|[]]. exact H.
Qed.
Lemma begins_app : forall a b, begins (a ++ b) = begins a ++ begins b.
Proof. intros. unfold begins. apply flat_map_app. Qed.
Lemma normalize_begins : forall ts res r, normalize_loop ts res = Ok r -> begins (rev r) = begins (rev res ++ ts).
Proof.
  induction ts as [|t ts IH]; intros res r H; [injection H as <-; now rewrite app_nil_r|].
  assert (P0 : normalize_loop ts (t :: res) = Ok r -> begins (rev r) = begins (rev res ++ t :: ts)).
  { intro X. rewrite (IH _ _ X). cbn [rev]. now rewrite <- app_assoc. }
  destruct t as [[|c s]|v|s|]; cbn [normalize_loop] in H; auto.
  - rewrite (IH _ _ H), !begins_app. reflexivity.
  - destruct res as [|[s|u|s|] res']; auto. rewrite (IH _ _ H). cbn [rev]. rewrite !begins_app. reflexivity.
  - destruct res as [|[s|u|s|] res']; auto; [discriminate|]. rewrite (IH _ _ H). cbn [rev]. rewrite !begins_app.
    cbn [begins flat_map app]. now rewrite !app_nil_r.
Qed.
Lemma normalize_tokens_begins : forall ts r, normalize_tokens ts = Ok r -> begins r = begins ts.
Proof.
  intros ts r H. unfold normalize_tokens in H. destruct (normalize_loop ts []) as [q|] eqn:E; [|discriminate].
  cbn [rbind] in H. injection H as <-. apply normalize_begins in E. cbn [rev app] in E. rewrite <- E.
  destruct q as [|[s|n|s|] q]; auto. cbn [rev]. rewrite begins_app. cbn [begins flat_map app]. now rewrite app_nil_r.
Qed.
Lemma format_begins : forall toks n, In n (begins (flat_map format_token toks)) ->
  exists ty v, In (ty, v) toks /\ n = pys "pygments-" ++ ty.
Proof.
  induction toks as [|[ty v] toks IH]; intros n H; [destruct H|]. cbn [flat_map] in H. rewrite begins_app in H.
  apply in_app_or in H. destruct H as [H|H].
  - exists ty, v. split; [now left|]. unfold format_token in H. destruct (str_eqb v [nl]); [destruct H|].
    cbn [begins flat_map app] in H. destruct H as [<-|H]; [reflexivity|]. exfalso. fold (begins ((if existsb (N.eqb nl) v
        then removelast (flat_map (fun t => match t with [] => [TNewline 1] | _ => [TText t; TNewline 1] end) (split_on nl v))
        else [TText v]) ++ [TEnd])) in H.
    rewrite begins_app in H. apply in_app_or in H. destruct H as [H|[]].
    destruct (existsb (N.eqb nl) v); [|destruct H]. apply begins_in in H.
    assert (G : forall l (t : token), In t (removelast l) -> In t l).
    { induction l as [|y l IHl]; intros t Ht; [destruct Ht|]. destruct l as [|z l]; [destruct Ht|]. destruct Ht as [->|Ht]; [now left|right; now apply IHl]. }
    apply G in H. apply in_flat_map in H. destruct H as (t & _ & H). destruct t; cbn in H; intuition discriminate.
  - destruct (IH n H) as (ty' & v' & A & B). exists ty', v'. split; [now right|exact B].
Qed.
Lemma highlight_begins : forall lex code ts n, highlight_code lex code = Ok ts -> In (TBegin n) ts ->
  exists ty v, In (ty, v) (lex code) /\ n = pys "pygments-" ++ ty.
Proof.
  intros lex code ts n H X. unfold highlight_code in H. apply normalize_tokens_begins in H. apply begins_in in X. rewrite H in X.
  now apply format_begins.
Qed.
Lemma numbers_begins : forall ts n, In (TBegin n) (add_line_numbers ts) -> n = pys "code_lineno" \/ In (TBegin n) ts.
Proof.
  intros ts n H. unfold add_line_numbers in H. cbn [In] in H. destruct H as [H|[H|[H|H]]]; try discriminate.
  { injection H as <-. now left. }
  revert H. generalize (List.length (dec (number_of_lines ts))) as w, 1 as line. induction ts as [|t ts IH]; intros w line H; [destruct H|].
  assert (K : forall k line, In (TBegin n) (number_newlines w k line) -> n = pys "code_lineno").
  { clear. induction k as [|k IH]; intros line H; [destruct H|]. cbn [number_newlines In] in H.
    destruct H as [H|[H|[H|[H|H]]]]; try discriminate; [now injection H as <-|now apply (IH (S line))]. }
  destruct t as [s|k|m|]; cbn [add_numbers_loop] in H.
  - destruct H as [H|H]; [discriminate|]. destruct (IH _ _ H); auto. right. now right.
  - apply in_app_or in H. destruct H as [H|H]; [left; eauto|]. destruct (IH _ _ H); auto. right. now right.
  - destruct H as [H|H]; [right; now left|]. destruct (IH _ _ H); auto. right. now right.
  - destruct H as [H|H]; [discriminate|]. destruct (IH _ _ H); auto. right. now right.
Qed.

(** ** The styles of a deck *)
Definition entry_style (e : entry) : style :=
  mkStyle PNone PNone PNone PNone
    (match e_color e with Some (c :: r) => PStr (pys "#" ++ c :: r) | _ => PNone end)
    (if e_bold e then PBool true else PNone) (if e_italic e then PBool true else PNone) PNone PNone (PNum 0).
Lemma highlight_style_is : forall e, highlight_style e = Ok (entry_style e).
Proof. intros [[[|c r]|] [|] [|]]; reflexivity. Qed.
Lemma entry_valid : forall e, valid_style (entry_style e).
Proof.
  intros [[[|c r]|] [|] [|]]; intros []; cbn; unfold is_string, is_number; eauto.
Qed.
Lemma highlight_is : forall th r, highlight_from th r =
  Ok (rev (map (fun te => (pygments_ ++ fst te, entry_style (snd te))) th) ++ r).
Proof.
  induction th as [|[t e] th IH]; intros r; [reflexivity|]. cbn [highlight_from]. rewrite highlight_style_is. cbn [rbind].
  rewrite IH. cbn [map rev fst snd]. now rewrite <- app_assoc.
Qed.
Lemma deck_styles_is : forall th, deck_styles th =
  Ok (rev (map (fun te => (pygments_ ++ fst te, entry_style (snd te))) th) ++ basic_styles).
Proof.
  intros th. unfold deck_styles. assert (M : make_all basic_styles = Ok basic_styles) by (vm_compute; reflexivity).
  rewrite M. cbn [rbind]. unfold make_highlight_styles. rewrite highlight_is, app_nil_r. reflexivity.
Qed.
Lemma assoc_app_none : forall (A : Type) k (a b : list (str * A)), (forall v, ~ In (k, v) a) -> assoc k (a ++ b) = assoc k b.
Proof.
  induction a as [|[k' v] a IH]; intros b H; [reflexivity|]. cbn [app assoc].
  destruct (str_eqb k k') eqn:E.
  - apply str_eqb_eq in E. subst. exfalso. apply (H v). now left.
  - apply IH. intros w X. apply (H w). now right.
Qed.
Lemma assoc_nodup : forall (A : Type) k (v : A) a b, NoDup (map fst a) -> In (k, v) a -> assoc k (a ++ b) = Some v.
Proof.
  induction a as [|[k' w] a IH]; intros b Hn H; [destruct H|]. cbn [map fst] in Hn. inversion Hn as [|? ? Nin Hn']; subst.
  cbn [app assoc]. destruct H as [H|H].
  - injection H as -> ->. assert (E : str_eqb k k = true) by now apply str_eqb_eq. now rewrite E.
  - destruct (str_eqb k k') eqn:E; [|now apply IH]. apply str_eqb_eq in E. subst. exfalso. apply Nin.
    apply in_map_iff. now exists (k', v).
Qed.
Lemma deck_entry : forall th d ty e, deck_styles th = Ok d -> NoDup (map fst th) -> In (ty, e) th ->
  assoc (pys "pygments-" ++ ty) d = Some (entry_style e).
Proof.
  intros th d ty e H Hn Hi. rewrite deck_styles_is in H. injection H as <-. apply assoc_nodup.
  - rewrite map_rev, map_map. cbn [fst]. apply NoDup_rev. clear -Hn. induction th as [|[t e] th IH]; [constructor|].
    cbn [map fst] in *. inversion Hn; subst. constructor; auto. intro X. apply in_map_iff in X. destruct X as ([t' e'] & X & Y).
    cbn [fst] in X. injection X as ->. apply H1. apply in_map_iff. now exists (t, e').
  - apply -> in_rev. apply in_map_iff. now exists (ty, e).
Qed.
Lemma deck_basic : forall th d n, deck_styles th = Ok d -> (forall ty, n <> pys "pygments-" ++ ty) ->
  assoc n d = assoc n basic_styles.
Proof.
  intros th d n H Hn. rewrite deck_styles_is in H. injection H as <-. apply assoc_app_none.
  intros v X. apply in_rev in X. apply in_map_iff in X. destruct X as ([t e] & X & _). injection X as X _. now apply (Hn t).
Qed.
