(** Lemmas about the XML writer and reader. *)
From Coq Require Import List NArith Bool String Lia.
From Verif Require Import Py PyFacts XmlModel XmlSpec.
Import ListNotations.
Local Open Scope N_scope.

Lemma wtree_ind' : forall P : wtree -> Prop,
  (forall t, P (WText t)) -> (forall t, P (WRaw t)) ->
  (forall n al c ks, Forall P ks -> P (WElem n al c ks)) -> forall t, P t.
Proof.
  intros P H1 H2 H3. fix IH 1. intros [t|t|n al c ks]; [apply H1|apply H2|]. apply H3.
  induction ks as [|k ks IHk]; constructor; [apply IH|exact IHk].
Qed.
Lemma all_closes : forall ks, (fix all (l : list wtree) : Prop :=
   match l with [] => True | k :: l' => closes k /\ all l' end) ks <-> Forall closes ks.
Proof.
  induction ks as [|k ks IH]; split; intros H; auto.
  - destruct H as [H1 H2]. constructor; auto. now apply IH.
  - inversion H; subst. split; auto. now apply IH.
Qed.
Lemma all_lawful : forall ks, (fix all (l : list wtree) : Prop :=
   match l with [] => True | k :: l' => lawful k /\ all l' end) ks <-> Forall lawful ks.
Proof.
  induction ks as [|k ks IH]; split; intros H; auto.
  - destruct H as [H1 H2]. constructor; auto. now apply IH.
  - inversion H; subst. split; auto. now apply IH.
Qed.

(** ** The writer *)

Lemma xrun_app : forall a b x, xrun x (a ++ b) = do y <- xrun x a; xrun y b.
Proof.
  induction a as [|c a IH]; intros b x; cbn; auto. destruct (xdo x c); cbn; auto.
Qed.

(** The characters written for properly nested calls. *)
Definition set_value (v : str) (e : bool) : str :=
  escape_text (if e then replace_char 39 (pys "\'") v else v).
Definition show_attr (a : str * str * bool) : str :=
  pys " " ++ fst (fst a) ++ pys "='" ++ set_value (snd (fst a)) (snd a) ++ pys "'".
Definition show_text (s : str) : str := replace_char 32 (pys "&#160;") (escape_text s).
Fixpoint show (t : wtree) : str :=
  match t with
  | WText s => show_text s
  | WRaw s => s
  | WElem n al _ ks =>
      pys "<" ++ n ++ flat_map show_attr al ++
      match ks with
      | [] => pys " />"
      | _ => pys ">" ++ flat_map show ks ++ pys "</" ++ n ++ pys ">"
      end
  end.
Definition written (x : xml) : str := List.concat (x_chunks x).

Lemma sets_run : forall al x, x_open x = true -> exists x', xrun x (map set_call al) = Ok x' /\
  x_stack x' = x_stack x /\ x_open x' = true /\
  written x' = written x ++ flat_map show_attr al.
Proof.
  induction al as [|[[n v] e] al IH]; intros x Ho; cbn [map xrun flat_map].
  - exists x. now rewrite app_nil_r.
  - unfold set_call. cbn [fst snd xdo]. unfold set_. rewrite Ho. cbn [rbind].
    destruct (IH (put_chunks x [pys " " ++ n ++ pys "='" ++
      escape_text (if e then replace_char 39 (pys "\'") v else v) ++ pys "'"])) as [x' [E [S [O W]]]]; auto.
    exists x'. split; auto. split; auto. split; auto. rewrite W. unfold written, put_chunks.
    cbn [x_chunks]. rewrite concat_app. cbn [List.concat]. rewrite app_nil_r.
    rewrite <- app_assoc. reflexivity.
Qed.

Definition opened (x : xml) : str := if x_open x then pys ">" else [].
Lemma close_tag_facts : forall x, x_stack (close_tag x) = x_stack x /\
  x_open (close_tag x) = false /\ written (close_tag x) = written x ++ opened x.
Proof.
  intros x. unfold close_tag, opened, written. destruct (x_open x) eqn:E; cbn.
  - rewrite concat_app. cbn [List.concat]. auto.
  - rewrite app_nil_r. auto.
Qed.

Definition flush (x : xml) (f : list wtree) : str := match f with [] => [] | _ => opened x end.

Lemma tree_run : forall t, closes t -> forall x, exists x', xrun x (tree_calls t) = Ok x' /\
  x_stack x' = x_stack x /\ x_open x' = false /\ written x' = written x ++ opened x ++ show t.
Proof.
  intros t. induction t as [t|t|n al c ks IH] using wtree_ind'; intros Hc x.
  - destruct (close_tag_facts x) as [S [O W]].
    eexists. split; [reflexivity|]. unfold put_chunks. cbn [x_stack x_open]. split; auto. split; auto.
    unfold written in *. cbn [x_chunks]. rewrite concat_app, W. cbn [List.concat].
    rewrite app_nil_r, <- app_assoc. reflexivity.
  - destruct (close_tag_facts x) as [S [O W]].
    eexists. split; [reflexivity|]. unfold put_chunks. cbn [x_stack x_open]. split; auto. split; auto.
    unfold written in *. cbn [x_chunks]. rewrite concat_app, W. cbn [List.concat].
    rewrite app_nil_r, <- app_assoc. reflexivity.
  - cbn [closes] in Hc. destruct Hc as [Hn Hk]. apply all_closes in Hk.
    destruct (close_tag_facts x) as [S [O W]].
    cbn [tree_calls xrun xdo]. unfold element. cbn [rbind put_chunks x_chunks x_stack x_open].
    set (x1 := mkXml (x_chunks (close_tag x) ++ [pys "<"; n]) (n :: x_stack (close_tag x)) true).
    rewrite xrun_app. destruct (sets_run al x1 eq_refl) as [x2 [E2 [S2 [O2 W2]]]].
    rewrite E2. cbn [rbind]. rewrite xrun_app.
    assert (F : forall ks x2, Forall (fun t => closes t -> forall x, exists x', xrun x (tree_calls t) = Ok x' /\
        x_stack x' = x_stack x /\ x_open x' = false /\
        written x' = written x ++ opened x ++ show t) ks -> Forall closes ks ->
      exists x3, xrun x2 (flat_map tree_calls ks) = Ok x3 /\ x_stack x3 = x_stack x2 /\
        x_open x3 = match ks with [] => x_open x2 | _ => false end /\
        written x3 = written x2 ++ flush x2 ks ++ flat_map show ks).
    { clear. induction ks as [|k ks IHk]; intros x2 HF Hc.
      - exists x2. cbn. rewrite app_nil_r. auto.
      - apply Forall_cons_iff in HF. destruct HF as [HF1 HF2]. apply Forall_cons_iff in Hc.
        destruct Hc as [Hc1 Hc2]. cbn [flat_map]. rewrite xrun_app.
        destruct (HF1 Hc1 x2) as [x3 [E3 [S3 [O3 W3]]]]. rewrite E3. cbn [rbind].
        destruct (IHk x3 HF2 Hc2) as [x4 [E4 [S4 [O4 W4]]]]. exists x4. split; auto.
        split; [congruence|]. split; [rewrite O4; destruct ks; auto|].
        rewrite W4, W3. unfold flush, opened. rewrite O3. rewrite <- !app_assoc.
        destruct ks; reflexivity. }
    destruct (F ks x2 IH Hk) as [x3 [E3 [S3 [O3 W3]]]]. rewrite E3. cbn [rbind xrun xdo].
    unfold close. rewrite S3, S2. cbn [x_stack x1].
    assert (B : match c with Some n0 => negb (str_eqb n n0) | None => false end = false).
    { destruct Hn as [-> | ->]; auto. now rewrite str_eqb_refl. }
    rewrite B. rewrite O3. rewrite O2.
    assert (W1 : written x1 = written x ++ opened x ++ pys "<" ++ n).
    { unfold x1, written. cbn [x_chunks]. rewrite concat_app. unfold written in W. rewrite W.
      cbn [List.concat]. rewrite app_nil_r, <- app_assoc. reflexivity. }
    rewrite S. destruct ks as [|k ks].
    + cbn [rbind]. eexists. split; [reflexivity|]. cbn [x_stack x_open].
      split; auto. split; auto. unfold written in *. cbn [x_chunks]. rewrite concat_app.
      rewrite W3, W2, W1. cbn [List.concat flat_map flush show]. rewrite !app_nil_r, <- !app_assoc.
      reflexivity.
    + cbn [rbind]. eexists. split; [reflexivity|]. cbn [x_stack x_open].
      split; auto. split; auto. unfold written in *. cbn [x_chunks]. rewrite concat_app.
      rewrite W3, W2, W1. unfold flush, opened at 2. rewrite O2. cbn [List.concat show].
      rewrite !app_nil_r, <- !app_assoc. reflexivity.
Qed.

Lemma forest_run : forall f, Forall closes f -> forall x, exists x', xrun x (forest_calls f) = Ok x' /\
  x_stack x' = x_stack x /\ written x' = written x ++ flush x f ++ flat_map show f.
Proof.
  intros f Hc. unfold forest_calls. induction Hc as [|t f Ht Hf IH]; intros x.
  - exists x. cbn. rewrite app_nil_r. auto.
  - cbn [flat_map]. rewrite xrun_app. destruct (tree_run t Ht x) as [x1 [E1 [S1 [O1 W1]]]].
    rewrite E1. cbn [rbind]. destruct (IH x1) as [x2 [E2 [S2 W2]]]. exists x2. split; auto.
    split; [congruence|]. rewrite W2, W1. unfold flush, opened. rewrite O1, <- !app_assoc.
    destruct f; reflexivity.
Qed.

(** The calls that empty a stack. *)
Inductive finishes : list str -> list xcall -> Prop :=
| fin_nil : forall f, Forall closes f -> finishes [] (forest_calls f)
| fin_cons : forall n st f c cs, Forall closes f -> c = None \/ c = Some n -> finishes st cs ->
    finishes (n :: st) (forest_calls f ++ CClose c :: cs).
Lemma finishes_tree : forall t st cs, closes t -> finishes st cs -> finishes st (tree_calls t ++ cs).
Proof.
  intros t st cs Ht H. inversion H; subst.
  - apply (fin_nil (t :: f)). constructor; auto.
  - rewrite app_assoc. apply (fin_cons n st0 (t :: f)); auto.
Qed.

Lemma run_finishes : forall cs x x', xrun x cs = Ok x' -> x_stack x' = [] ->
  exists al cs', cs = map set_call al ++ cs' /\ finishes (x_stack x) cs' /\
    (x_open x = false -> al = []).
Proof.
  induction cs as [|c cs IH]; intros x x' H Hs.
  - cbn in H. injection H as ->. exists [], []. split; auto. split; auto. rewrite Hs.
    apply (fin_nil []). constructor.
  - cbn [xrun] in H. destruct (xdo x c) as [x1|] eqn:E; [|discriminate]. cbn [rbind] in H.
    destruct (IH x1 x' H Hs) as [al [cs' [-> [F A]]]]. clear IH H.
    destruct (close_tag_facts x) as [S [O _]].
    destruct c as [t|n|n v e|t|nm]; cbn [xdo] in E.
    + unfold raw_text in E. injection E as <-. cbn [x_stack x_open put_chunks] in *.
      rewrite (A O) in *. exists [], (CRaw t :: cs'). split; auto. split; auto. rewrite S in F.
      now apply (finishes_tree (WRaw t)).
    + unfold element in E. injection E as <-. cbn [x_stack x_open put_chunks] in *.
      rewrite S in F. inversion F; subst. exists []. eexists. split; [reflexivity|]. split; auto.
      assert (T := finishes_tree (WElem n al c f) (x_stack x) cs).
      cbn [tree_calls closes] in T. unfold forest_calls. cbn [app map] in *.
      rewrite <- !app_assoc in T. cbn [app] in T. apply T; auto. split; auto. now apply all_closes.
    + unfold set_ in E. destruct (x_open x) eqn:Ho; [|discriminate]. injection E as <-.
      cbn [x_stack x_open put_chunks] in *. exists ((n, v, e) :: al), cs'. split; auto.
      split; auto. discriminate.
    + unfold text_ in E. injection E as <-. cbn [x_stack x_open put_chunks] in *.
      rewrite (A O) in *. exists [], (CText t :: cs'). split; auto. split; auto. rewrite S in F.
      now apply (finishes_tree (WText t)).
    + unfold close in E. destruct (x_stack x) as [|top rest] eqn:St; [discriminate|].
      destruct (match nm with Some n => negb (str_eqb top n) | None => false end) eqn:B; [discriminate|].
      assert (Hn : nm = None \/ nm = Some top).
      { destruct nm as [n|]; auto. right. apply negb_false_iff, str_eqb_eq in B. now subst. }
      assert (X : x_stack x1 = rest /\ x_open x1 = false).
      { destruct (x_open x); injection E as <-; auto. }
      destruct X as [X1 X2]. rewrite (A X2) in *. rewrite X1 in F. exists [], (CClose nm :: cs').
      split; auto. split; auto. apply (fin_cons top rest []); auto.
Qed.

(** ** Escaping *)

Lemma replace_char_flat : forall c by_ s,
  replace_char c by_ s = flat_map (fun x => if N.eqb x c then by_ else [x]) s.
Proof. induction s as [|x s IH]; cbn; auto. rewrite IH. destruct (N.eqb x c); auto. Qed.
Lemma flat_map_flat_map : forall {A B C} (f : A -> list B) (g : B -> list C) l,
  flat_map g (flat_map f l) = flat_map (fun a => flat_map g (f a)) l.
Proof. induction l as [|a l IH]; cbn; auto. now rewrite flat_map_app, IH. Qed.

Definition esc (c : char) : str :=
  if c =? 38 then pys "&amp;" else if c =? 60 then pys "&lt;" else if c =? 62 then pys "&gt;" else [c].
Definition esc_text (c : char) : str := if c =? 32 then pys "&#160;" else esc c.
Lemma escape_flat : forall s, escape_text s = flat_map esc s.
Proof.
  intros s. unfold escape_text. rewrite !replace_char_flat, !flat_map_flat_map.
  apply flat_map_ext. intros c. unfold esc.
  destruct (N.eqb_spec c 38); [subst; reflexivity|]. cbn [flat_map app].
  destruct (N.eqb_spec c 60); [subst; reflexivity|]. cbn [flat_map app].
  destruct (N.eqb_spec c 62); [subst; reflexivity|]. reflexivity.
Qed.
Lemma show_text_flat : forall s, show_text s = flat_map esc_text s.
Proof.
  intros s. unfold show_text. rewrite escape_flat, replace_char_flat, flat_map_flat_map.
  apply flat_map_ext. intros c. unfold esc_text, esc.
  destruct (N.eqb_spec c 38); [subst; reflexivity|].
  destruct (N.eqb_spec c 60); [subst; reflexivity|].
  destruct (N.eqb_spec c 62); [subst; reflexivity|]. cbn [flat_map app].
  destruct (N.eqb_spec c 32); reflexivity.
Qed.

(** ** The reader *)

Lemma steps_app : forall a b r, steps r (a ++ b) =
  match steps r a with Some r' => steps r' b | None => None end.
Proof.
  induction a as [|c a IH]; intros b r; cbn [steps app]; auto. destruct (step r c); auto.
Qed.

Lemma esc_text_read : forall c ns op, legal_char c = true ->
  steps (mkReader MContent ns op) (esc_text c) =
  Some (mkReader MContent (NChar (if c =? 32 then 160 else c) :: ns) op).
Proof.
  intros c ns op H. unfold esc_text, esc. unfold legal_char in H. apply andb_true_iff in H.
  destruct H as [H1 H2].
  destruct (N.eqb_spec c 32); [subst; reflexivity|].
  destruct (N.eqb_spec c 38); [subst; reflexivity|].
  destruct (N.eqb_spec c 60); [subst; reflexivity|].
  destruct (N.eqb_spec c 62); [subst; reflexivity|].
  cbn [steps]. unfold step. rewrite H1. cbn [negb r_mode r_nodes r_open].
  destruct (N.eqb_spec c 60); [contradiction|]. destruct (N.eqb_spec c 38); [contradiction|]. reflexivity.
Qed.
Lemma text_read : forall s ns op, legal s = true ->
  steps (mkReader MContent ns op) (show_text s) =
  Some (mkReader MContent (rev (map NChar (hard_spaces s)) ++ ns) op).
Proof.
  intros s. rewrite show_text_flat. induction s as [|c s IH]; intros ns op H; [reflexivity|].
  cbn [legal forallb] in H. apply andb_true_iff in H. destruct H as [H1 H2].
  cbn [flat_map]. rewrite steps_app, esc_text_read by auto. rewrite IH by auto.
  cbn [hard_spaces map rev]. rewrite <- app_assoc. reflexivity.
Qed.

Lemma name_start_char : forall c, name_start c = true -> name_char c = true.
Proof. intros c H. unfold name_char. now rewrite H. Qed.
Lemma name_char_facts : forall c, name_char c = true -> xml_char c = true /\
  xml_space c = false /\ c <> 47 /\ c <> 62 /\ c <> 61 /\ c <> 60 /\ c <> 38 /\ c <> 39 /\ c <> 34.
Proof.
  intros c H. assert (R : 45 <= c <= 122 /\ c <> 47 /\ c <> 60 /\ c <> 61 /\ c <> 62).
  { unfold name_char, name_start in H.
    repeat (apply orb_true_iff in H; destruct H as [H|H]);
      try (apply andb_true_iff in H; destruct H as [H H']; apply N.leb_le in H, H'); 
      try apply N.eqb_eq in H; lia. }
  unfold xml_char, xml_space. repeat split; try lia.
  - repeat match goal with |- context [?a <=? ?b] => destruct (N.leb_spec a b); try lia end;
    cbn; now rewrite ?orb_true_r.
  - repeat match goal with |- context [?a =? ?b] => destruct (N.eqb_spec a b); try lia end; reflexivity.
Qed.

Ltac stepc := cbn [steps]; unfold step; cbn [r_mode r_nodes r_open].

Lemma mname_read : forall s acc ns op, forallb name_char s = true ->
  steps (mkReader (MName acc) ns op) s = Some (mkReader (MName (rev s ++ acc)) ns op).
Proof.
  induction s as [|c s IH]; intros acc ns op H; auto. cbn [forallb] in H.
  apply andb_true_iff in H. destruct H as [H1 H2]. destruct (name_char_facts c H1) as [X _].
  stepc. rewrite X, H1. cbn [negb]. rewrite IH; auto. cbn [rev]. now rewrite <- app_assoc.
Qed.
Lemma mattr_read : forall s n al acc ns op, forallb name_char s = true ->
  steps (mkReader (MAttr n al acc) ns op) s = Some (mkReader (MAttr n al (rev s ++ acc)) ns op).
Proof.
  induction s as [|c s IH]; intros n al acc ns op H; auto. cbn [forallb] in H.
  apply andb_true_iff in H. destruct H as [H1 H2]. destruct (name_char_facts c H1) as [X _].
  stepc. rewrite X, H1. cbn [negb]. rewrite IH; auto. cbn [rev]. now rewrite <- app_assoc.
Qed.
Lemma mend_read : forall s a acc ns op, forallb name_char s = true ->
  steps (mkReader (MEnd (a :: acc)) ns op) s = Some (mkReader (MEnd (rev s ++ a :: acc)) ns op).
Proof.
  induction s as [|c s IH]; intros a acc ns op H; auto. cbn [forallb] in H.
  apply andb_true_iff in H. destruct H as [H1 H2]. destruct (name_char_facts c H1) as [X _].
  stepc. rewrite X, H1. cbn [negb]. rewrite IH; auto. cbn [rev]. now rewrite <- app_assoc.
Qed.

(** From "<" to the end of the name. *)
Lemma start_tag_read : forall n ns op, is_name n = true ->
  steps (mkReader MContent ns op) (pys "<" ++ n) = Some (mkReader (MName (rev n)) ns op).
Proof.
  intros [|c n] ns op H; [discriminate|]. cbn [is_name] in H. apply andb_true_iff in H.
  destruct H as [H1 H2]. destruct (name_char_facts c (name_start_char _ H1)) as [X [_ [X1 _]]].
  change (pys "<" ++ c :: n) with (60 :: [c] ++ n).
  change (steps (mkReader MContent ns op) (60 :: [c] ++ n)) with
    (steps (mkReader MTag ns op) ([c] ++ n)). rewrite steps_app. stepc. rewrite X, H1.
  cbn [negb]. destruct (N.eqb_spec c 47); [contradiction|]. rewrite mname_read; auto.
Qed.
Lemma end_tag_read : forall n ns al before op, is_name n = true ->
  steps (mkReader MContent ns ((n, al, before) :: op)) (pys "</" ++ n ++ pys ">") =
  Some (mkReader MContent (NElem n (rev al) (rev ns) :: before) op).
Proof.
  intros [|c n] ns al before op H; [discriminate|]. cbn [is_name] in H. apply andb_true_iff in H.
  destruct H as [H1 H2]. destruct (name_char_facts c (name_start_char _ H1)) as [X _].
  change (steps (mkReader MContent ns ((c :: n, al, before) :: op)) (pys "</" ++ (c :: n) ++ pys ">"))
    with (steps (mkReader (MEnd []) ns ((c :: n, al, before) :: op)) ([c] ++ (n ++ pys ">"))).
  rewrite steps_app. stepc. rewrite X, H1. cbn [negb]. rewrite steps_app, mend_read; auto.
  change (pys ">") with [62]. stepc. change (xml_char 62) with true. change (name_char 62) with false.
  change (xml_space 62) with false. cbn [negb N.eqb Pos.eqb].
  destruct (rev n ++ [c]) as [|x y] eqn:E; [destruct (rev n); discriminate|].
  unfold end_tag. cbn [r_open r_nodes]. rewrite <- E, rev_app_distr, rev_involutive. cbn [rev app].
  now rewrite str_eqb_refl.
Qed.

(** Attribute values. *)
Lemma esc_value_read : forall c n al a acc ns op,
  xml_char c && negb ((c =? 9) || (c =? 10) || (c =? 13) || (c =? 39)) = true ->
  steps (mkReader (MValue n al a 39 acc) ns op) (esc c) =
  Some (mkReader (MValue n al a 39 (c :: acc)) ns op).
Proof.
  intros c n al a acc ns op H. apply andb_true_iff in H. destruct H as [H1 H2].
  apply negb_true_iff in H2. apply orb_false_iff in H2. destruct H2 as [H2 H3].
  unfold esc.
  destruct (N.eqb_spec c 38); [subst; reflexivity|].
  destruct (N.eqb_spec c 60); [subst; reflexivity|].
  destruct (N.eqb_spec c 62); [subst; reflexivity|].
  stepc. rewrite H1, H3. cbn [negb].
  destruct (N.eqb_spec c 60); [contradiction|]. destruct (N.eqb_spec c 38); [contradiction|].
  unfold xml_space. destruct (N.eqb_spec c 32); [subst; reflexivity|].
  cbn [orb]. rewrite H2. reflexivity.
Qed.
Lemma value_read : forall v n al a acc ns op, legal_value v = true ->
  steps (mkReader (MValue n al a 39 acc) ns op) (escape_text v) =
  Some (mkReader (MValue n al a 39 (rev v ++ acc)) ns op).
Proof.
  intros v. rewrite escape_flat. induction v as [|c v IH]; intros n al a acc ns op H; auto.
  cbn [legal_value forallb] in H. apply andb_true_iff in H. destruct H as [H1 H2].
  cbn [flat_map]. rewrite steps_app, esc_value_read by auto. rewrite IH by auto.
  cbn [rev]. now rewrite <- app_assoc.
Qed.
Lemma no_quote_replace : forall v, legal_value v = true -> replace_char 39 (pys "\'") v = v.
Proof.
  induction v as [|c v IH]; intros H; auto. cbn [legal_value forallb] in H.
  apply andb_true_iff in H. destruct H as [H1 H2]. cbn [replace_char]. rewrite IH by auto.
  apply andb_true_iff in H1. destruct H1 as [_ H1]. apply negb_true_iff, orb_false_iff in H1.
  destruct H1 as [_ ->]. reflexivity.
Qed.
Lemma set_value_legal : forall v e, legal_value v = true -> set_value v e = escape_text v.
Proof. intros v [|] H; unfold set_value; auto. now rewrite no_quote_replace. Qed.

(** Where an attribute may start. *)
Definition tag_mode (n : str) (al : list (str * str)) (m : mode) : Prop :=
  match al with [] => m = MName (rev n) | _ => m = MAfter n al end.
Lemma name_before_space : forall n ns op, steps (mkReader (MName (rev n)) ns op) (pys " ") =
  Some (mkReader (MSpace n []) ns op).
Proof. intros. cbn. now rewrite rev_involutive. Qed.
Lemma tag_space : forall n al m ns op, tag_mode n al m ->
  steps (mkReader m ns op) (pys " ") = Some (mkReader (MSpace n al) ns op).
Proof.
  intros n al m ns op H. unfold tag_mode in H. destruct al; subst m.
  - apply name_before_space.
  - reflexivity.
Qed.

Lemma attr_read : forall n al m a v e ns op, tag_mode n al m -> is_name a = true ->
  legal_value v = true -> ~ In a (map fst al) ->
  steps (mkReader m ns op) (show_attr (a, v, e)) = Some (mkReader (MAfter n ((a, v) :: al)) ns op).
Proof.
  intros n al m a v e ns op Hm Ha Hv Hd. unfold show_attr. cbn [fst snd].
  rewrite set_value_legal by auto.
  rewrite steps_app, (tag_space n al) by auto.
  destruct a as [|c a]; [discriminate|]. cbn [is_name] in Ha. apply andb_true_iff in Ha.
  destruct Ha as [H1 H2]. destruct (name_char_facts c (name_start_char _ H1)) as [X [X' _]].
  change ((c :: a) ++ pys "='" ++ escape_text v ++ pys "'") with
    ([c] ++ (a ++ (pys "='" ++ escape_text v ++ pys "'"))).
  rewrite steps_app. stepc. rewrite X, X', H1. cbn [negb]. rewrite steps_app, mattr_read by auto.
  rewrite steps_app.
  assert (E : steps (mkReader (MAttr n al (rev a ++ [c])) ns op) (pys "='") =
    Some (mkReader (MValue n al (c :: a) 39 []) ns op)).
  { change (pys "='") with ([61] ++ [39]). rewrite steps_app. stepc.
    change (xml_char 61) with true. change (name_char 61) with false. cbn [negb N.eqb Pos.eqb].
    rewrite rev_app_distr, rev_involutive. cbn [rev app].
    assert (D : existsb (fun x => str_eqb (fst x) (c :: a)) al = false).
    { apply not_true_is_false. intros D. apply existsb_exists in D. destruct D as [y [Y1 Y2]].
      apply str_eqb_eq in Y2. apply Hd. rewrite <- Y2. now apply in_map. }
    rewrite D. reflexivity. }
  rewrite E. rewrite steps_app, value_read by auto. rewrite app_nil_r.
  change (pys "'") with [39]. stepc. cbn [negb N.eqb Pos.eqb xml_char]. cbn. now rewrite rev_involutive.
Qed.

Lemma attrs_read : forall al al0 n m ns op, tag_mode n al0 m ->
  Forall (fun a => is_name (fst (fst a)) = true /\ legal_value (snd (fst a)) = true) al ->
  NoDup (map fst al0 ++ map (fun a => fst (fst a)) al) ->
  exists m', steps (mkReader m ns op) (flat_map show_attr al) = Some (mkReader m' ns op) /\
    tag_mode n (rev (map fst al) ++ al0) m'.
Proof.
  induction al as [|[[a v] e] al IH]; intros al0 n m ns op Hm Hf Hd.
  - exists m. split; auto.
  - apply Forall_cons_iff in Hf. cbn [fst snd] in Hf. destruct Hf as [[Ha Hv] Hf].
    cbn [flat_map]. rewrite steps_app, (attr_read n al0) by
      (auto; intros X; apply NoDup_remove_2 in Hd; apply Hd; apply in_or_app; auto).
    destruct (IH ((a, v) :: al0) n (MAfter n ((a, v) :: al0)) ns op) as [m' [E M]].
    + reflexivity.
    + auto.
    + cbn [map fst app]. apply NoDup_remove in Hd. destruct Hd as [D1 D2]. constructor; auto.
    + exists m'. split; auto. cbn [map fst rev]. now rewrite <- app_assoc.
Qed.

(** Reading in an enclosing context. *)
Definition under (ns : list node) (op : list (str * list (str * str) * list node)) (r : reader)
  : reader :=
  match rev (r_open r) with
  | [] => mkReader (r_mode r) (r_nodes r ++ ns) op
  | (n, al, b) :: rest =>
      mkReader (r_mode r) (r_nodes r) (rev rest ++ (n, al, b ++ ns) :: op)
  end.
Lemma under_snoc : forall ns op m k o n al b, under ns op (mkReader m k (o ++ [(n, al, b)])) =
  mkReader m k (o ++ (n, al, b ++ ns) :: op).
Proof. intros. unfold under. cbn [r_open]. rewrite rev_app_distr. cbn. now rewrite rev_involutive. Qed.
Lemma under_nil : forall ns op m k, under ns op (mkReader m k []) = mkReader m (k ++ ns) op.
Proof. reflexivity. Qed.

Lemma step_under : forall ns op r c r', step r c = Some r' -> step (under ns op r) c = Some (under ns op r').
Proof.
  intros ns op [m k o] c r' H. unfold step in *. cbn [r_mode r_nodes r_open] in *.
  destruct o as [|[[n al] b] o' ] using rev_ind.
  - rewrite under_nil. cbn [r_mode r_nodes r_open].
    destruct (negb (xml_char c)); [discriminate|].
    destruct m;
    repeat match type of H with
    | (if ?b then _ else _) = _ => destruct b
    | match ?b with _ => _ end = _ => destruct b
    end; try discriminate; unfold open_tag, empty_tag, end_tag in *; cbn [r_nodes r_open] in *;
    try discriminate; injection H as <-; try reflexivity.
  - clear IHo'. rewrite under_snoc. cbn [r_mode r_nodes r_open].
    destruct (negb (xml_char c)); [discriminate|].
    assert (E : forall n0, match end_tag n0 (mkReader m k (o' ++ [(n, al, b)])) with
        | Some r' => end_tag n0 (mkReader m k (o' ++ (n, al, b ++ ns) :: op)) = Some (under ns op r')
        | None => True end).
    { intros n0. unfold end_tag. cbn [r_open r_nodes]. destruct o' as [|[[n1 al1] b1] o'']; cbn [app].
      - destruct (str_eqb n0 n); [|exact I]. rewrite under_nil. reflexivity.
      - destruct (str_eqb n0 n1); [|exact I]. rewrite under_snoc. reflexivity. }
    destruct m;
    repeat match type of H with
    | (if ?b then _ else _) = _ => destruct b
    | match ?b with _ => _ end = _ => destruct b
    end; try discriminate;
    try (match type of H with end_tag ?n0 _ = _ => specialize (E n0); rewrite H in E; exact E end);
    unfold open_tag, empty_tag in *; cbn [r_nodes r_open] in *;
    injection H as <-; rewrite ?under_snoc; try reflexivity;
    match goal with |- context [under _ _ (mkReader _ _ (?a :: ?o ++ [?z]))] =>
      change (a :: o ++ [z]) with ((a :: o) ++ [z]); rewrite under_snoc; reflexivity end.
Qed.
Lemma steps_under : forall s ns op r r', steps r s = Some r' ->
  steps (under ns op r) s = Some (under ns op r').
Proof.
  induction s as [|c s IH]; intros ns op r r' H; cbn [steps] in *.
  - congruence.
  - destruct (step r c) as [r1|] eqn:E; [|discriminate]. rewrite (step_under ns op _ _ _ E). auto.
Qed.

Lemma normal_id : forall s, ~ In 13 s -> normal_lines s = s.
Proof.
  induction s as [|c s IH]; intros H; auto. cbn [normal_lines].
  destruct (N.eqb_spec c 13); [subst; destruct H; now left|]. f_equal. apply IH. intros X. apply H. now right.
Qed.

Lemma raw_read : forall s ks ns op, read s = Some ks -> ~ In 13 s ->
  steps (mkReader MContent ns op) s = Some (mkReader MContent (rev ks ++ ns) op).
Proof.
  intros s ks ns op H Hn. unfold read in H. rewrite normal_id in H by auto.
  destruct (steps start_reader s) as [[m k o]|] eqn:E; [|discriminate]. cbn [r_mode r_open r_nodes] in H.
  destruct m; try discriminate. destruct o; [|discriminate]. injection H as <-.
  apply (steps_under s ns op) in E. unfold start_reader in E. rewrite !under_nil in E.
  cbn [app] in E. now rewrite rev_involutive.
Qed.

Lemma tree_read : forall t, lawful t -> forall ns op,
  steps (mkReader MContent ns op) (show t) = Some (mkReader MContent (rev (tree_nodes t) ++ ns) op).
Proof.
  intros t. induction t as [t|t|n al c ks IH] using wtree_ind'; intros H ns op.
  - now apply text_read.
  - destruct H as [[ks H1] H2]. cbn [show tree_nodes]. rewrite H1. now apply raw_read.
  - destruct H as [Hn [Hd [Ha Hk]]]. apply all_lawful in Hk. cbn [show tree_nodes].
    rewrite app_assoc, steps_app, start_tag_read by auto. rewrite steps_app.
    destruct (attrs_read al [] n (MName (rev n)) ns op) as [m [E M]]; auto; [reflexivity|].
    rewrite E. rewrite app_nil_r in M.
    assert (F : forall ks ns op, Forall (fun t => lawful t -> forall ns op,
        steps (mkReader MContent ns op) (show t) =
        Some (mkReader MContent (rev (tree_nodes t) ++ ns) op)) ks -> Forall lawful ks ->
      steps (mkReader MContent ns op) (flat_map show ks) =
      Some (mkReader MContent (rev (flat_map tree_nodes ks) ++ ns) op)).
    { clear. induction ks as [|k ks IHk]; intros ns op HF HL; auto.
      apply Forall_cons_iff in HF. destruct HF as [HF1 HF2]. apply Forall_cons_iff in HL.
      destruct HL as [HL1 HL2]. cbn [flat_map]. rewrite steps_app, HF1 by auto. rewrite IHk by auto.
      now rewrite rev_app_distr, <- app_assoc. }
    assert (G : steps (mkReader m ns op) (pys ">") =
      Some (mkReader MContent [] ((n, rev (map fst al), ns) :: op))).
    { unfold tag_mode in M. destruct (rev (map fst al)) as [|a l]; subst m.
      - cbn. unfold open_tag. cbn. rewrite rev_involutive. reflexivity.
      - reflexivity. }
    destruct ks as [|k ks].
    + change (pys " />") with (pys " " ++ pys "/>"). rewrite steps_app, (tag_space n (rev (map fst al))) by auto.
      cbn. unfold empty_tag. cbn. now rewrite rev_involutive.
    + rewrite steps_app, G, steps_app, (F (k :: ks)) by auto. rewrite end_tag_read by auto.
      now rewrite rev_involutive, app_nil_r, rev_involutive.
Qed.

(** No carriage returns are written. *)
Lemma esc_no_cr : forall (f : char -> str) s, (forall c, c <> 13 -> ~ In 13 (f c)) -> ~ In 13 s ->
  ~ In 13 (flat_map f s).
Proof.
  intros f s Hf H X. apply in_flat_map in X. destruct X as [c [H1 H2]].
  destruct (N.eq_dec c 13); [subst; auto|]. now apply (Hf c).
Qed.
Lemma esc_13 : forall c, c <> 13 -> ~ In 13 (esc c).
Proof.
  intros c H X. unfold esc in X.
  destruct (c =? 38); [vm_compute in X; intuition discriminate|].
  destruct (c =? 60); [vm_compute in X; intuition discriminate|].
  destruct (c =? 62); [vm_compute in X; intuition discriminate|].
  destruct X as [X|[]]. congruence.
Qed.
Lemma esc_text_13 : forall c, c <> 13 -> ~ In 13 (esc_text c).
Proof.
  intros c H X. unfold esc_text in X.
  destruct (c =? 32); [vm_compute in X; intuition discriminate|]. now apply (esc_13 c).
Qed.
Lemma name_no_cr : forall n, is_name n = true -> ~ In 13 n.
Proof.
  intros [|c n] H X; [discriminate|]. cbn [is_name] in H. apply andb_true_iff in H.
  destruct H as [H1 H2]. destruct X as [-> | X]; [discriminate|].
  rewrite forallb_forall in H2. apply H2 in X. discriminate.
Qed.
Lemma legal_no_cr : forall s, legal s = true -> ~ In 13 s.
Proof. intros s H X. unfold legal in H. rewrite forallb_forall in H. apply H in X. discriminate. Qed.
Lemma legal_value_no_cr : forall s, legal_value s = true -> ~ In 13 s.
Proof. intros s H X. unfold legal_value in H. rewrite forallb_forall in H. apply H in X. discriminate. Qed.

Lemma pys_no_cr : forall s, existsb (N.eqb 13) (pys s) = false -> ~ In 13 (pys s).
Proof.
  intros s H X. assert (existsb (N.eqb 13) (pys s) = true).
  { apply existsb_exists. exists 13. auto. } congruence.
Qed.
Lemma show_no_cr : forall t, lawful t -> ~ In 13 (show t).
Proof.
  intros t. induction t as [t|t|n al c ks IH] using wtree_ind'; intros H.
  - cbn [show]. rewrite show_text_flat. apply esc_no_cr; [apply esc_text_13|]. now apply legal_no_cr.
  - now destruct H.
  - destruct H as [Hn [Hd [Ha Hk]]]. apply all_lawful in Hk. cbn [show].
    assert (A : ~ In 13 (flat_map show_attr al)).
    { intros X. apply in_flat_map in X. destruct X as [[[a v] e] [X1 X2]].
      rewrite Forall_forall in Ha. apply Ha in X1. cbn [fst snd] in X1. destruct X1 as [Y1 Y2].
      unfold show_attr in X2. cbn [fst snd] in X2. rewrite set_value_legal in X2 by auto.
      rewrite !in_app_iff in X2. rewrite escape_flat in X2.
      destruct X2 as [X|[X|[X|[X|X]]]]; revert X.
      - now apply pys_no_cr.
      - now apply name_no_cr.
      - now apply pys_no_cr.
      - apply esc_no_cr; [apply esc_13|]. now apply legal_value_no_cr.
      - now apply pys_no_cr. }
    assert (N1 := name_no_cr n Hn).
    intros X. rewrite !in_app_iff in X. destruct X as [X|[X|[X|X]]]; auto.
    + revert X. now apply pys_no_cr.
    + destruct ks as [|k ks]; [revert X; now apply pys_no_cr|].
      rewrite !in_app_iff in X. destruct X as [X|[X|[X|[X|X]]]]; auto.
      * revert X. now apply pys_no_cr.
      * apply in_flat_map in X. destruct X as [y [Y1 Y2]]. rewrite Forall_forall in IH, Hk.
        now apply (IH y Y1 (Hk y Y1)).
      * revert X. now apply pys_no_cr.
      * revert X. now apply pys_no_cr.
Qed.

Lemma forest_read : forall f, Forall lawful f ->
  read (flat_map show f) = Some (forest_nodes f).
Proof.
  intros f H. unfold read. rewrite normal_id.
  - assert (G : forall f ns, Forall lawful f -> steps (mkReader MContent ns []) (flat_map show f) =
      Some (mkReader MContent (rev (forest_nodes f) ++ ns) [])).
    { clear. induction f as [|t f IH]; intros ns H; auto. inversion H; subst. cbn [flat_map].
      rewrite steps_app, tree_read by auto. rewrite IH by auto. unfold forest_nodes. cbn [flat_map].
      now rewrite rev_app_distr, <- app_assoc. }
    unfold start_reader. rewrite G by auto. cbn [r_mode r_open r_nodes].
    now rewrite app_nil_r, rev_involutive.
  - intros X. apply in_flat_map in X. destruct X as [t [X1 X2]]. rewrite Forall_forall in H.
    now apply (show_no_cr t (H t X1)).
Qed.

(** ** Texts and values that do not come back *)

Lemma flat_map_app' : forall {A B} (f : A -> list B) a b, flat_map f (a ++ b) = flat_map f a ++ flat_map f b.
Proof. intros. apply flat_map_app. Qed.
Lemma normal_prefix : forall a b, ~ In 13 a -> normal_lines (a ++ b) = a ++ normal_lines b.
Proof.
  induction a as [|c a IH]; intros b H; auto. cbn [app normal_lines].
  destruct (N.eqb_spec c 13); [subst; destruct H; now left|]. f_equal. apply IH. intros X. apply H. now right.
Qed.
Lemma normal_suffix : forall a b, ~ In 13 b -> (forall b', b <> 10 :: b') ->
  normal_lines (a ++ b) = normal_lines a ++ b.
Proof.
  induction a as [|c a IH]; intros b H Hb; [now apply normal_id|]. cbn [app normal_lines].
  rewrite IH by auto. destruct (c =? 13); auto. destruct a as [|d a]; cbn [app].
  - destruct b as [|e b]; auto. destruct (N.eqb_spec e 10); auto. subst. now destruct (Hb b).
  - destruct (d =? 10); auto.
Qed.
Lemma normal_13 : forall s, normal_lines (13 :: s) =
  if match s with d :: _ => d =? 10 | [] => false end then normal_lines s else 10 :: normal_lines s.
Proof. reflexivity. Qed.
Lemma normal_flat : forall (f : char -> str) s, f 13 = [13] -> f 10 = [10] ->
  (forall c, c <> 13 -> ~ In 13 (f c)) ->
  (forall c, c <> 10 -> exists d r, f c = d :: r /\ d <> 10) ->
  normal_lines (flat_map f s) = flat_map f (normal_lines s).
Proof.
  intros f s F13 F10 Fn Fh. induction s as [|c s IH]; auto. cbn [flat_map].
  destruct (N.eqb_spec c 13) as [->|Hc].
  - rewrite F13. cbn [app]. rewrite !normal_13. rewrite IH.
    destruct s as [|d s]; [cbn [flat_map]; cbn; now rewrite F10|].
    destruct (N.eqb_spec d 10) as [->|Hd].
    + cbn [flat_map]. rewrite F10. reflexivity.
    + cbn [flat_map]. destruct (Fh d Hd) as [e [r [E He]]]. rewrite E. cbn [app].
      destruct (N.eqb_spec e 10); [contradiction|]. rewrite F10. reflexivity.
  - rewrite normal_prefix by auto. rewrite IH. cbn [normal_lines].
    destruct (N.eqb_spec c 13); [contradiction|]. reflexivity.
Qed.
Lemma esc_head : forall c, c <> 10 -> exists d r, esc c = d :: r /\ d <> 10.
Proof.
  intros c H. unfold esc. destruct (c =? 38); [eexists; eexists; split; [reflexivity|discriminate]|].
  destruct (c =? 60); [eexists; eexists; split; [reflexivity|discriminate]|].
  destruct (c =? 62); [eexists; eexists; split; [reflexivity|discriminate]|]. eauto.
Qed.
Lemma esc_text_head : forall c, c <> 10 -> exists d r, esc_text c = d :: r /\ d <> 10.
Proof.
  intros c H. unfold esc_text. destruct (c =? 32); [eexists; eexists; split; [reflexivity|discriminate]|].
  now apply esc_head.
Qed.

Lemma normal_chars : forall s, ~ In 13 (normal_lines s).
Proof.
  induction s as [|c s IH]; auto. cbn [normal_lines]. destruct (N.eqb_spec c 13).
  - destruct s as [|d s]; [intros [X|[]]; discriminate|]. destruct (d =? 10); auto.
    intros [X|X]; [discriminate|auto].
  - intros [X|X]; auto.
Qed.
Lemma normal_legal : forall s, forallb xml_char s = true -> legal (normal_lines s) = true.
Proof.
  intros s H. unfold legal. apply forallb_forall. intros c Hc. unfold legal_char.
  apply andb_true_iff. split.
  - assert (G : forall s, In c (normal_lines s) -> c = 10 \/ In c s).
    { clear. induction s as [|d s IH]; auto. cbn [normal_lines]. destruct (d =? 13).
      - destruct s as [|e s]; [intros [X|[]]; auto|]. destruct (e =? 10).
        + intros X. apply IH in X. destruct X; auto. right. now right.
        + intros [X|X]; auto. apply IH in X. destruct X; auto. right. now right.
      - intros [X|X]; [right; now left|]. apply IH in X. destruct X; auto. right. now right. }
    apply G in Hc. destruct Hc as [->|Hc]; auto. rewrite forallb_forall in H. auto.
  - destruct (N.eqb_spec c 13); auto. subst. exfalso. now apply (normal_chars s).
Qed.
Lemma normal_keeps : forall s c, c <> 13 -> In c s -> In c (normal_lines s).
Proof.
  induction s as [|d s IH]; intros c Hc H; auto. cbn [normal_lines].
  destruct H as [->|H].
  - destruct (N.eqb_spec c 13); [contradiction|]. now left.
  - specialize (IH c Hc H). destruct (d =? 13); [|now right].
    destruct s as [|e s]; [contradiction|]. destruct (e =? 10); auto. now right.
Qed.

(** A character that XML cannot represent makes everything unreadable. *)
Lemma illegal_unreadable : forall s r c, In c s -> xml_char c = false -> steps r s = None.
Proof.
  induction s as [|d s IH]; intros r c H Hc; [contradiction|]. cbn [steps].
  destruct H as [->|H].
  - unfold step. rewrite Hc. reflexivity.
  - destruct (step r d); auto. eapply IH; eauto.
Qed.

(** What was read of the first element and its first attribute stays. *)
Section FirstAttribute.
Variable Q : str -> Prop.
Definition attrs_inv (al : list (str * str)) : Prop :=
  match rev al with [] => False | (_, v) :: _ => Q v end.
Definition open_inv (o : list (str * list (str * str) * list node)) (k : list node) : Prop :=
  match rev o with
  | (_, al, []) :: _ => attrs_inv al
  | (_, _, b) :: _ => match rev b with NElem _ ((_, v) :: _) _ :: _ => Q v | _ => False end
  | [] => match rev k with NElem _ ((_, v) :: _) _ :: _ => Q v | _ => False end
  end.
Definition first_inv (r : reader) : Prop :=
  open_inv (r_open r) (r_nodes r) \/
  (r_open r = [] /\ r_nodes r = [] /\
   match r_mode r with
   | MSpace _ al | MAttr _ al _ | MEq _ al _ | MAfter _ al | MEmpty _ al => attrs_inv al
   | MValue _ [] _ _ acc => forall e, Q (rev acc ++ e)
   | MValueRef _ [] _ _ acc _ => forall e, Q (rev acc ++ e)
   | MValue _ al _ _ _ | MValueRef _ al _ _ _ _ => attrs_inv al
   | _ => False
   end).

Lemma attrs_inv_cons : forall a al, attrs_inv al -> attrs_inv (a :: al).
Proof.
  intros a al H. unfold attrs_inv in *. cbn [rev]. destruct (rev al) as [|[x v] l]; [contradiction|]. exact H.
Qed.
Lemma attrs_inv_one : forall a v, Q v -> attrs_inv [(a, v)].
Proof. intros a v H. exact H. Qed.

Lemma open_inv_node : forall o k x, open_inv o k -> open_inv o (x :: k).
Proof.
  intros o k x H. unfold open_inv in *. destruct (rev o) as [|[[n al] b] l]; [|exact H].
  cbn [rev]. destruct (rev k) as [|y l]; [contradiction|]. exact H.
Qed.
Lemma open_inv_push : forall o k n al, open_inv o k -> open_inv ((n, al, k) :: o) [].
Proof.
  intros o k n al H. unfold open_inv in *. cbn [rev]. destruct (rev o) as [|[[n' al'] b] l]; cbn [app].
  - destruct k as [|x k]; [contradiction|]. exact H.
  - exact H.
Qed.
Lemma open_inv_pop : forall o k n al b x, open_inv ((n, al, b) :: o) k ->
  (x = NElem n (rev al) (rev k)) -> open_inv o (x :: b).
Proof.
  intros o k n al b x H ->. unfold open_inv in *. cbn [rev] in *.
  destruct (rev o) as [|[[n' al'] b'] l]; cbn [app] in *.
  - destruct b as [|y b].
    + cbn [rev app]. unfold attrs_inv in H. destruct (rev al) as [|[u v] r]; [contradiction|]. exact H.
    + destruct (rev (y :: b)) as [|z l] eqn:E; [contradiction|]. cbn [app]. exact H.
  - exact H.
Qed.
Lemma open_inv_open : forall n al, attrs_inv al -> open_inv [(n, al, [])] [].
Proof. intros n al H. exact H. Qed.
Lemma open_inv_empty : forall n al, attrs_inv al -> open_inv [] [NElem n (rev al) []].
Proof.
  intros n al H. unfold open_inv, attrs_inv in *. cbn [rev app].
  destruct (rev al) as [|[u v] r]; [contradiction|]. exact H.
Qed.

Lemma first_step : forall r c r', first_inv r -> step r c = Some r' -> first_inv r'.
Proof.
  intros [m k o] c r' H E. unfold step in E. cbn [r_mode r_nodes r_open] in E.
  destruct (negb (xml_char c)); [discriminate|].
  destruct H as [H|[Ho [Hk H]]]; cbn [r_mode r_nodes r_open] in *.
  - left. destruct m;
    repeat match type of E with
    | (if ?b then _ else _) = _ => destruct b
    | match ?b with _ => _ end = _ => destruct b
    end; try discriminate; unfold open_tag, empty_tag, end_tag in *; cbn [r_nodes r_open] in *;
    try (destruct o as [|[[n' al'] b'] o']; [discriminate|];
         match type of E with (if ?b then _ else _) = _ => destruct b end; [|discriminate]);
    injection E as <-; cbn [r_open r_nodes r_mode]; auto using open_inv_node, open_inv_push.
    all: eapply open_inv_pop; eauto.
  - subst o k. destruct m; try contradiction;
    repeat match type of E with
    | (if ?b then _ else _) = _ => destruct b
    | match ?b with _ => _ end = _ => destruct b
    end; try discriminate; unfold open_tag, empty_tag, end_tag in *; cbn [r_nodes r_open] in *;
    try discriminate; injection E as <-; unfold first_inv; cbn [r_open r_nodes r_mode];
    auto using open_inv_open, open_inv_empty.
    all: right; split; auto; split; auto.
    all: try (destruct attrs as [|a0 attrs]; [|now auto using attrs_inv_cons]).
    all: try (apply attrs_inv_one; specialize (H []); now rewrite app_nil_r in H).
    all: try exact H.
    all: try (exact (False_ind _ H)).
    all: intros e; cbn [rev]; rewrite <- app_assoc; apply H.
Qed.
Lemma first_steps : forall s r r', first_inv r -> steps r s = Some r' -> first_inv r'.
Proof.
  induction s as [|c s IH]; intros r r' H E; cbn [steps] in E; [congruence|].
  destruct (step r c) as [r1|] eqn:E1; [|discriminate]. apply (IH r1 r'); auto. apply (first_step r c r1); auto.
Qed.
End FirstAttribute.
