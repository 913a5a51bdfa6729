(** Proofs about markdown documents. *)
From Coq Require Import String List ZArith NArith QArith Bool Lia Arith.
From Verif Require Import Py PyFacts TextModel TextSpec TextCode TextProps ShowModel ShowSpec ShowProofs LayoutModel LayoutSpec ImageProofs SlideModel SlideSpec SlideProofs ListModel ListSpec ListProofs ListProps2 MarkdownModel MarkdownSpec.
Import ListNotations.
Local Open Scope Z_scope.

(** ** Induction over documents *)
Section Ind.
  Variable P : inline -> Prop.
  Hypothesis H1 : forall s, P (IRaw s).
  Hypothesis H2 : forall l, Forall P l -> P (IEmphasis l).
  Hypothesis H3 : forall l, Forall P l -> P (IStrong l).
  Hypothesis H4 : forall l, Forall P l -> P (ILink l).
  Hypothesis H5 : P IBreak.
  Hypothesis H6 : forall s, P (IOther s).
  Fixpoint inline_ind2 (i : inline) : P i :=
    let go := fix go (l : list inline) : Forall P l :=
      match l with [] => Forall_nil P | x :: l' => Forall_cons x (inline_ind2 x) (go l') end in
    match i with
    | IRaw s => H1 s | IEmphasis l => H2 l (go l) | IStrong l => H3 l (go l) | ILink l => H4 l (go l)
    | IBreak => H5 | IOther s => H6 s
    end.
End Ind.
Section Ind.
  Variable P : block -> Prop.
  Hypothesis H1 : forall k l, P (BHeading k l).
  Hypothesis H2 : forall l, P (BParagraph l).
  Hypothesis H3 : P BBlank.
  Hypothesis H4 : forall bs, Forall P bs -> P (BQuote bs).
  Hypothesis H5 : forall lang t, P (BFenced lang t).
  Hypothesis H6 : forall o s b items, Forall (Forall P) items -> P (BList o s b items).
  Hypothesis H7 : P BOther.
  Fixpoint block_ind2 (b : block) : P b :=
    let go := fix go (l : list block) : Forall P l :=
      match l with [] => Forall_nil P | x :: l' => Forall_cons x (block_ind2 x) (go l') end in
    match b with
    | BHeading k l => H1 k l | BParagraph l => H2 l | BBlank => H3 | BQuote bs => H4 bs (go bs)
    | BFenced lang t => H5 lang t
    | BList o s u items => H6 o s u items
        ((fix goo (l : list (list block)) : Forall (Forall P) l :=
            match l with [] => Forall_nil _ | x :: l' => Forall_cons x (go x) (goo l') end) items)
    | BOther => H7
    end.
End Ind.
Lemma all_Forall : forall A (P : A -> Prop) l, all P l <-> Forall P l.
Proof.
  induction l as [|x l IH]; cbn; [split; constructor|]. rewrite IH. split; [intros []; now constructor|].
  intro H. inversion H; auto.
Qed.

(** ** Inline nodes *)
Fixpoint to_doc (i : inline) : doc :=
  match i with
  | IRaw s => DText s
  | IEmphasis l => DStyle (pys "md-italic") (map to_doc l)
  | IStrong l => DStyle (pys "md-bold") (map to_doc l)
  | ILink l => DStyle (pys "md-link") (map to_doc l)
  | IBreak => DText [10%N]
  | IOther _ => DText []
  end.
Lemma flat_map_map_ext : forall A B C (f : B -> list C) (g : A -> B) (h : A -> list C) l,
  Forall (fun x => h x = f (g x)) l -> flat_map h l = flat_map f (map g l).
Proof. intros A B C f g h l H. induction H as [|x l E H IH]; [reflexivity|]. cbn. now rewrite E, IH. Qed.
Lemma raw_prints : forall esc l, get_raw_text [esc] l = prints esc 123%N 125%N (map to_doc l).
Proof.
  intros esc l. unfold get_raw_text, prints. apply flat_map_map_ext. apply Forall_forall. intros i _.
  induction i as [s|l' IH|l' IH|l' IH| |s] using inline_ind2; cbn [raw_text to_doc print]; try reflexivity;
    unfold wrap; apply flat_map_map_ext in IH; rewrite IH; reflexivity.
Qed.
Lemma to_doc_valid : forall esc i inside, ok_inline esc inside i -> valid esc 123%N 125%N inside (to_doc i).
Proof.
  intros esc i. induction i as [s|l IH|l IH|l IH| |s] using inline_ind2; intros inside H; cbn [ok_inline to_doc valid] in *; auto.
  1-3: split; [cbn; intuition discriminate|]; revert H; induction IH as [|x l Hx IH IHl]; cbn [map all]; auto;
    intros [H1 H2]; split; [auto|exact (IHl H2)].
  - split; [|cbn; intuition discriminate]. intros [E|[]]. congruence.
Qed.
Lemma to_doc_events : forall esc i inside st, ok_inline esc inside i -> inline_events st i = doc_events st (to_doc i).
Proof.
  intros esc i. induction i as [s|l IH|l IH|l IH| |s] using inline_ind2; intros inside st H; cbn [inline_events to_doc doc_events]; auto.
  1-3: f_equal; apply flat_map_map_ext; cbn [ok_inline] in H; apply all_Forall in H;
    rewrite Forall_forall in *; intros x Hx; eapply IH; eauto.
  destruct H.
Qed.
Lemma inline_text : forall esc l, esc <> 125%N -> all (ok_inline esc false) l ->
  exists ts, text_tokens (get_raw_text [esc] l) [esc] = Ok ts /\ balanced ts /\
    without_trailing break (inlines_events l) (events [] ts).
Proof.
  intros esc l E H. apply all_Forall in H. unfold text_tokens. cbn [delimiters rbind]. rewrite raw_prints.
  assert (V : valids esc 123%N 125%N false (map to_doc l)).
  { apply Forall_map. eapply Forall_impl; [|exact H]. intros. now apply to_doc_valid. }
  destruct (C24_inline_styles esc 123%N 125%N _ E V) as (ts & T1 & T2 & T3). exists ts. split; [exact T1|]. split; [exact T2|].
  replace (inlines_events l) with (docs_events [] (map to_doc l)); [exact T3|].
  symmetry. unfold inlines_events, docs_events. apply flat_map_map_ext. eapply Forall_impl; [|exact H].
  intros i Hi. now apply to_doc_events with (esc := esc) (inside := false).
Qed.

(** ** Finding boxes *)
Lemma get_box_absent : forall i n, ~ In i (node_ids n) -> get_box i n = None.
Proof.
  intros i n. induction n as [j z|b cs IH] using node_ind2; intro H; [reflexivity|].
  cbn [get_box node_ids] in *. destruct (Nat.eqb_spec (b_id b) i) as [E|E]; [subst; simpl in H; tauto|].
  assert (H' : ~ In i (flat_map node_ids cs)) by (simpl in H; tauto). clear H E.
  assert (X : existsb (fun c => match c with NItem j _ => Nat.eqb j i | _ => false end) cs = false).
  { clear IH. induction cs as [|c cs IHc]; [reflexivity|]. cbn in *. rewrite in_app_iff in H'.
    rewrite IHc by tauto. destruct c as [j z|]; [|reflexivity]. destruct (Nat.eqb_spec j i); [|reflexivity].
    subst. simpl in H'. tauto. }
  rewrite X. clear X. induction IH as [|c cs Hc _ IHcs]; [reflexivity|]. cbn in H'. rewrite in_app_iff in H'.
  rewrite Hc by tauto. apply IHcs. tauto.
Qed.
Lemma get_box_fill : forall C b cs, NoDup (node_ids (fill C (NBox b cs))) ->
  get_box (b_id b) (fill C (NBox b cs)) = Some (b, cs).
Proof.
  assert (G : forall i n x C, (exists b cs, n = NBox b cs) -> In i (node_ids n) -> get_box i n = Some x ->
    NoDup (node_ids (fill C n)) -> get_box i (fill C n) = Some x).
  { intros i n x C. revert i n x. induction C as [|[[d pre] post] C IH]; intros i n x Nb Hi Hn Hd; [exact Hn|].
    cbn [fill] in *. apply IH; auto; [eauto| |].
    - cbn [node_ids]. simpl. right. rewrite flat_map_app, in_app_iff. right. simpl. rewrite in_app_iff. auto.
    - rewrite ids_fill in Hd. apply NoDup_app_inv in Hd. destruct Hd as [_ [Hd _]].
      apply NoDup_app_inv in Hd. destruct Hd as [Hd _]. cbn [node_ids] in Hd.
      rewrite flat_map_app in Hd. simpl in Hd. apply NoDup_cons_iff in Hd.
      destruct Hd as [H1 H2]. rewrite !in_app_iff in H1.
      apply NoDup_app_inv in H2. destruct H2 as [_ [H2 H3]].
      apply NoDup_app_inv in H2. destruct H2 as [_ [_ H4]].
      cbn [get_box]. destruct (Nat.eqb_spec (b_id d) i) as [E|E]; [subst; tauto|]. clear H1.
      assert (X : existsb (fun c => match c with NItem j _ => Nat.eqb j i | _ => false end) (pre ++ n :: post) = false).
      { apply not_true_iff_false. intro X. apply existsb_exists in X as (c & Hc & Ec). destruct c as [j z|]; [|discriminate].
        apply Nat.eqb_eq in Ec. subst j. apply in_elt_inv in Hc as [Hc|Hc].
        - destruct Nb as (b & cs & ->). discriminate.
        - apply in_app_iff in Hc as [Hc|Hc].
          + apply (H3 i); [|rewrite in_app_iff; auto]. apply in_flat_map. exists (NItem i z). split; [exact Hc|now left].
          + apply (H4 i); [exact Hi|]. apply in_flat_map. exists (NItem i z). split; [exact Hc|now left]. }
      rewrite X. clear X. induction pre as [|p pre IHp]; simpl; [now rewrite Hn|].
      rewrite (get_box_absent i p).
      + apply IHp; intros x' Hx'; apply H3; simpl; rewrite in_app_iff; auto.
      + intro Hx. apply (H3 i); [simpl|]; rewrite in_app_iff; auto. }
  intros C b cs Hd. apply G; [eauto|cbn [node_ids]; now left| |exact Hd]. cbn [get_box]. now rewrite Nat.eqb_refl.
Qed.

Lemma get_box_present : forall i b cs, In i (node_ids (NBox b cs)) -> exists x, get_box i (NBox b cs) = Some x.
Proof.
  assert (G : forall i n, (exists b cs, n = NBox b cs) -> In i (node_ids n) -> exists x, get_box i n = Some x).
  { intros i n. induction n as [j z|b cs IH] using node_ind2; intros (b' & cs' & E) H; [discriminate|]. clear b' cs' E.
    cbn [get_box node_ids] in *. destruct (Nat.eqb_spec (b_id b) i) as [E|E]; [eauto|].
    destruct H as [H|H]; [contradiction|]. destruct (existsb _ cs) eqn:X; [eauto|].
    induction IH as [|c cs Hc _ IHcs]; [destruct H|]. cbn [existsb] in X. apply orb_false_iff in X as [X1 X2].
    cbn [flat_map] in H. apply in_app_iff in H. destruct c as [j z|b0 cs0].
    - cbn [get_box]. apply Nat.eqb_neq in X1. destruct H as [[->|[]]|H]; [contradiction|]. auto.
    - destruct (get_box i (NBox b0 cs0)) as [x|] eqn:Q; [eauto|]. destruct H as [H|H]; [|auto].
      destruct (Hc ltac:(eauto) H). discriminate. }
  intros i b cs. apply G. eauto.
Qed.

(** ** Calls that succeed *)
Definition always : show_info := mk_show_info None None None.
Definition from_on (cur : Z) : show_info := mk_show_info (Some []) (Some cur) None.
Lemma last_plus_ok : forall cur, parse_show last_plus (Some cur) = Ok (from_on cur).
Proof. reflexivity. Qed.
Lemma from_on_max : forall cur, 1 <= cur -> max_step (from_on cur) = cur.
Proof.
  intros cur H. unfold max_step, max_step_of, from_on. cbn [mk_show_info si_steps si_open max_default].
  destruct (Z.eqb_spec cur 0); lia.
Qed.
Lemma always_visible : forall k, 1 <= k -> is_visible always k = true.
Proof. intros k H. unfold is_visible. cbn. apply Z.leb_le. exact H. Qed.
Lemma from_on_visible : forall cur k, is_visible (from_on cur) k = (cur <=? k).
Proof. reflexivity. Qed.

(** What a call does to the slide [s] when it adds a node to the box [b]. *)
Definition added (s x : slide) (C : context) (b : bhead) (cs : list node) (show : show_info) (z : Z) : Prop :=
  wf x /\ sl_box x = fill C (NBox b (cs ++ [NBox (mkBox (sl_next s) show z) []])) /\
  sl_next x = S (sl_next s) /\ sl_max x = sl_max s.
Lemma box_call_ok : forall s r a C b cs l show, wf s -> get_box r (sl_box s) = Some (b, cs) ->
  sl_box s = fill C (NBox b cs) -> ba_prepend a = false -> ba_above a = None -> ba_below a = None ->
  new_layout (sl_next s) (ba_layout a) = Ok l -> parse_show (ba_show a) (Some (sl_max s)) = Ok show ->
  max_step show <= sl_max s ->
  exists x z, box_call s r a = (x, Ok (sl_next s)) /\ added s x C b cs show z.
Proof.
  intros s r a C b cs l show W G E P A B L S M.
  assert (Q : exists x z, box_call s r a = (x, Ok (sl_next s)) /\
     sl_box x = fill C (NBox b (cs ++ [NBox (mkBox (sl_next s) show z) []])) /\
     sl_next x = Datatypes.S (sl_next s) /\ sl_max x = sl_max s).
  { unfold box_call. rewrite G, L, S, P, A, B. cbn [add_child]. eexists. exists (match ba_z a with Some z => z | None => b_z b end).
    split; [reflexivity|]. cbn [set_tree set_max sl_box sl_next sl_max]. split; [|split; [reflexivity|lia]].
    rewrite E. rewrite upd_box_fill; [reflexivity|]. rewrite <- E. apply W. }
  destruct Q as (x & z & Q & R). exists x, z. split; [exact Q|]. split; [|exact R].
  apply (perform_wf s (CBox r a) x _ W Q).
Qed.
Lemma box_ok : forall s C b cs named d a l show, wf (ls_slide s) -> sl_box (ls_slide s) = fill C (NBox b cs) ->
  call_args named d = Ok a -> ba_prepend a = false -> ba_above a = None -> ba_below a = None ->
  new_layout (sl_next (ls_slide s)) (ba_layout a) = Ok l ->
  parse_show (ba_show a) (Some (sl_max (ls_slide s))) = Ok show -> max_step show <= sl_max (ls_slide s) ->
  exists x z, box_with s (b_id b) named d = (with_slide s x, Ok (sl_next (ls_slide s))) /\
    added (ls_slide s) x C b cs show z.
Proof.
  intros s C b cs named d a l show W E CA P A B L S M.
  assert (G : get_box (b_id b) (sl_box (ls_slide s)) = Some (b, cs)). { rewrite E. apply get_box_fill. rewrite <- E. apply W. }
  destruct (box_call_ok _ _ _ _ _ _ _ _ W G E P A B L S M) as (x & z & H & R). exists x, z. split; [|exact R].
  unfold box_with. rewrite CA, H. reflexivity.
Qed.
Lemma sbox_ok : forall s C b cs, wf (ls_slide s) -> sl_box (ls_slide s) = fill C (NBox b cs) ->
  exists x z, sbox s (b_id b) = (with_slide s x, Ok (sl_next (ls_slide s))) /\
    added (ls_slide s) x C b cs always z.
Proof.
  intros s C b cs W E. unfold sbox. set (h := match get_box _ _ with Some _ => _ | None => _ end).
  assert (M : max_step always <= sl_max (ls_slide s)) by apply W.
  destruct h; (eapply box_ok; [exact W|exact E|reflexivity|reflexivity|reflexivity|reflexivity|reflexivity|reflexivity|exact M]).
Qed.
Lemma text_ok : forall s C b cs w h, wf s -> sl_box s = fill C (NBox b cs) ->
  exists x z, item_call s (b_id b) (TextItem w h false) = (x, Ok (sl_next s)) /\ wf x /\
    sl_box x = fill C (NBox b (cs ++ [NItem (sl_next s) z])) /\ sl_next x = S (sl_next s) /\ sl_max x = sl_max s.
Proof.
  intros s C b cs w h W E.
  assert (G : get_box (b_id b) (sl_box s) = Some (b, cs)). { rewrite E. apply get_box_fill. rewrite <- E. apply W. }
  assert (Q : exists x z, item_call s (b_id b) (TextItem w h false) = (x, Ok (sl_next s)) /\
     sl_box x = fill C (NBox b (cs ++ [NItem (sl_next s) z])) /\ sl_next x = S (sl_next s) /\ sl_max x = sl_max s).
  { unfold item_call. rewrite G. eexists. exists (b_z b). split; [reflexivity|].
    cbn [append_item sl_box sl_next sl_max]. split; [|auto]. rewrite E, upd_box_fill; [reflexivity|]. rewrite <- E. apply W. }
  destruct Q as (x & z & Q & R). exists x, z. split; [exact Q|]. split; [|exact R].
  apply (perform_wf s (CItem (b_id b) (TextItem w h false)) x _ W Q).
Qed.

Section Doc.
Variable measure_text : str -> list token -> Q * Q.
Variable measure : str -> Q * Q.
Variable lexer_of : str -> option (str -> list (str * str)).
Variable esc : char.
Hypothesis Hesc : esc <> 125%N.

(** The new item of a list. *)
Definition item_node (it lb ct : bhead) (li : nat) (lz : Z) (cs : list node) : node :=
  NBox it [NBox lb [NItem li lz]; NBox ct cs].
Lemma item_ok : forall s n bd C bp K, wf (ls_slide s) -> nth_error (ls_lists s) n = Some bd ->
  l_args bd = [Kshow last_plus] -> l_parent bd = b_id bp -> sl_box (ls_slide s) = fill C (NBox bp K) ->
  (l_label bd = Some (arabic measure) \/ exists t, l_label bd = Some (LText t)) ->
  exists x it lb ct li lz, item measure s n None None [] =
      (mkState x (set_nth n (set_level bd (bump (l_level bd))) (ls_lists s))
         (ls_shown s ++ [(n, bump (l_level bd))]), Ok (b_id ct)) /\
    wf x /\ sl_box x = fill C (NBox bp (K ++ [item_node it lb ct li lz []])) /\
    (sl_next (ls_slide s) <= sl_next x)%nat /\ sl_max x = sl_max (ls_slide s) /\
    b_show it = from_on (sl_max (ls_slide s)) /\ b_show lb = always /\ b_show ct = always /\
    (sl_next (ls_slide s) <= li < sl_next x)%nat.
Proof.
  intros s n bd C bp K W N A P E L.
  unfold item. rewrite N. cbv zeta. set (b := set_level bd (bump (l_level bd))).
  set (s1 := mkState (ls_slide s) (set_nth n b (ls_lists s)) (ls_shown s)).
  assert (CA : exists a l, call_args [Kx (AStr (pys "[0%]")); Kp_left (Some (l_total b + 0)%Q)]
                      (ListModel.update (l_args b) (ListModel.update [] [Khorizontal true])) = Ok a /\
                ba_prepend a = false /\ ba_above a = None /\ ba_below a = None /\
                new_layout (sl_next (ls_slide s1)) (ba_layout a) = Ok l /\
                ba_show a = last_plus).
  { cbn [b set_level l_args]. rewrite A. eexists. eexists. split; [reflexivity|]. repeat split; reflexivity. }
  destruct CA as (a & l & CA & A1 & A2 & A3 & A4 & A5).
  assert (M1 : 1 <= sl_max (ls_slide s)) by apply W.
  destruct (box_ok s1 C bp K _ _ a l (from_on (sl_max (ls_slide s))) W E CA A1 A2 A3 A4) as (x1 & z1 & Q1 & W1 & T1 & X1 & Y1).
  { rewrite A5. apply last_plus_ok. } { rewrite from_on_max by lia. cbn. lia. }
  unfold create_box. change (l_parent b) with (l_parent bd). rewrite P, Q1. clear Q1.
  set (it := mkBox (sl_next (ls_slide s1)) (from_on (sl_max (ls_slide s))) z1) in *.
  set (s2 := with_slide s1 x1).
  change (l_label b) with (l_label bd). change (l_padding b) with (l_padding bd).
  assert (E2 : sl_box (ls_slide s2) = fill ((bp, K, []) :: C) (NBox it [])) by exact T1.
  destruct (box_ok s2 _ it [] [Ky (AStr (pys "[0%]"))] [] _ _ always W1 E2 eq_refl eq_refl eq_refl eq_refl eq_refl eq_refl) as (x2 & z2 & Q2 & W2 & T2 & X2 & Y2).
  { cbn [s2 with_slide ls_slide]. rewrite Y1. exact M1. }
  set (lb := mkBox (sl_next (ls_slide s2)) always z2) in *.
  set (s3 := with_slide s2 x2).
  change (sl_next (ls_slide s1)) with (b_id it). 
  assert (E3 : sl_box (ls_slide s3) = fill ((it, [], []) :: (bp, K, []) :: C) (NBox lb [])) by exact T2.
  (* the text of the label *)
  assert (TX : forall w h, exists x3 z3, item_call (ls_slide s3) (b_id lb) (TextItem w h false) = (x3, Ok (sl_next x2)) /\ wf x3 /\
    sl_box x3 = fill C (NBox bp (K ++ [NBox it [NBox lb [NItem (sl_next x2) z3]]])) /\ sl_next x3 = S (sl_next x2) /\ sl_max x3 = sl_max x2).
  { intros w h. destruct (text_ok (ls_slide s3) _ lb [] w h W2 E3) as (x3 & z3 & Q3 & W3 & T3 & X3 & Y3). exists x3, z3.
    split; [exact Q3|]. split; [exact W3|]. split; [exact T3|]. auto. }
  (* the box of the content *)
  assert (FIN : forall x3 z3 lists shown, wf x3 -> sl_box x3 = fill C (NBox bp (K ++ [NBox it [NBox lb [NItem (sl_next x2) z3]]])) ->
    sl_max x3 = sl_max x2 -> exists x4 z4, box_with (mkState x3 lists shown) (b_id it) [Kp_left (Some (l_padding bd)); Kwidth (AStr (pys "fill"))] [] =
      (mkState x4 lists shown, Ok (sl_next x3)) /\ wf x4 /\
      sl_box x4 = fill C (NBox bp (K ++ [item_node it lb (mkBox (sl_next x3) always z4) (sl_next x2) z3 []])) /\
      sl_next x4 = S (sl_next x3) /\ sl_max x4 = sl_max x3).
  { intros x3 z3 lists shown W3 T3 Y3.
    assert (E4 : sl_box (ls_slide (mkState x3 lists shown)) = fill ((bp, K, []) :: C) (NBox it [NBox lb [NItem (sl_next x2) z3]])) by exact T3.
    destruct (box_ok (mkState x3 lists shown) _ it _ [Kp_left (Some (l_padding bd)); Kwidth (AStr (pys "fill"))] [] _ _ always W3 E4 eq_refl eq_refl eq_refl eq_refl eq_refl eq_refl)
      as (x4 & z4 & Q4 & W4 & T4 & X4 & Y4).
    { cbn [ls_slide]. apply W3. }
    exists x4, z4. split; [exact Q4|]. split; [exact W4|]. split; [exact T4|]. auto. }
  cbn [s1 s2 ls_slide with_slide] in X1, Y1, X2, Y2.
  destruct L as [L|(t & L)]; rewrite L, Q2.
  - unfold arabic. destruct (measure (arabic_text (l_level b))) as [w h] eqn:Em.
    destruct (TX w h) as (x3 & z3 & Q3 & W3 & T3 & X3 & Y3). cbn [perform_all perform].
    change (sl_next (ls_slide s2)) with (b_id lb). fold s3. rewrite Q3.
    set (sh := ls_shown s3 ++ _). set (ll := set_nth n (set_level b (l_level b)) (ls_lists s3)).
    destruct (FIN x3 z3 ll sh W3 T3 Y3) as (x4 & z4 & Q4 & W4 & T4 & X4 & Y4). rewrite Q4.
    exists x4, it, lb, (mkBox (sl_next x3) always z4), (sl_next x2), z3. split.
    { f_equal. f_equal. subst ll. cbn [s3 s2 s1 with_slide ls_lists]. change (set_level b (l_level b)) with b.
      clear. generalize (ls_lists s). induction n as [|n IH]; intros [|y l]; cbn [set_nth]; auto. now rewrite IH. }
    split; [exact W4|]. split; [exact T4|]. split; [lia|]. split; [lia|]. repeat (split; [reflexivity|]). lia.
  - destruct (measure t) as [w h] eqn:Em.
    destruct (TX w h) as (x3 & z3 & Q3 & W3 & T3 & X3 & Y3).
    change (sl_next (ls_slide s2)) with (b_id lb). fold s3. rewrite Q3.
    set (sh := ls_shown s3 ++ _). 
    destruct (FIN x3 z3 (ls_lists s3) sh W3 T3 Y3) as (x4 & z4 & Q4 & W4 & T4 & X4 & Y4). rewrite Q4.
    exists x4, it, lb, (mkBox (sl_next x3) always z4), (sl_next x2), z3. split; [reflexivity|].
    split; [exact W4|]. split; [exact T4|]. split; [lia|]. split; [lia|]. repeat (split; [reflexivity|]). lia.
Qed.
End Doc.
