(** C64: moving between fragments in notebooks. *)
From Coq Require Import String List ZArith NArith Bool Lia Arith.
From Verif Require Import Py PyFacts ImageIds ListModel ListSpec ListProps2 JupyterModel.
Import ListNotations.
Local Open Scope Z_scope.

(** ** Specification *)

(** The fragment [k] of [n] after a click. *)
Definition moved (n : Z) (next : bool) (k : Z) : Z :=
  if next then Z.min n (k + 1) else Z.max 1 (k - 1).
(** Size and current fragment of a slide after the events. *)
Inductive current : list event -> nat -> nat -> Z -> Prop :=
| cu_display : forall es id n, current (es ++ [Display id n]) id n 1
| cu_other : forall es id n k id' n', current es id n k -> id' <> id -> current (es ++ [Display id' n']) id n k
| cu_click : forall es id n k b, current es id n k -> current (es ++ [Click b id]) id n (if Nat.ltb 1 n then moved (Z.of_nat n) b k else k)
| cu_click_other : forall es id n k b id', current es id n k -> id' <> id -> current (es ++ [Click b id']) id n k.
(** Every displayed slide has an own id. *)
Fixpoint displayed (es : list event) : list nat :=
  match es with [] => [] | Display id _ :: es' => id :: displayed es' | Click _ _ :: es' => displayed es' end.

(** A panel that shows the fragment [k] of [n] and nothing else. *)
Definition shows_only (p : panel) (n : nat) (k : Z) : Prop :=
  List.length (p_fragments p) = n /\
  forall i f, nth_error (p_fragments p) i = Some f -> f_display f = true <-> Z.of_nat i + 1 = k.
Definition buttons (p : panel) (n k : Z) : Prop :=
  exists c, p_controls p = Some c /\ (c_next c = true <-> k = n) /\ (c_previous c = true <-> k = 1) /\
    c_text c = pys "Fragment: " ++ str_of_int k.

(** ** Proofs *)

Lemma step_class_inj : forall a b, step_class a = step_class b -> a = b.
Proof.
  intros a b H. unfold step_class in H. apply app_inv_head in H.
  eapply int_text_det; [apply str_of_int_text|]. rewrite H. apply str_of_int_text.
Qed.

(** The fragments of a panel, from number [i] on, with [k] shown. *)
Definition frags (i n : nat) (k : Z) : list fragment :=
  map (fun j => mkFragment (step_class (Z.of_nat j + 1)) (Z.of_nat j + 1 =? k)) (seq i n).
Definition hidden (i n : nat) : list fragment :=
  map (fun j => mkFragment (step_class (Z.of_nat j + 1)) false) (seq i n).
Lemma show_class_hidden : forall n i k, Z.of_nat i + 1 <= k <= Z.of_nat i + Z.of_nat n ->
  show_class (step_class k) (hidden i n) = Some (frags i n k).
Proof.
  induction n as [|n IH]; intros i k H; [lia|]. cbn [hidden frags seq map show_class f_class].
  destruct (str_eqb (step_class (Z.of_nat i + 1)) (step_class k)) eqn:E.
  - apply str_eqb_eq, step_class_inj in E. subst k. rewrite Z.eqb_refl. f_equal. f_equal.
    unfold frags. apply map_ext_in. intros j Hj. apply in_seq in Hj. f_equal. symmetry. apply Z.eqb_neq. lia.
  - assert (D : Z.of_nat i + 1 <> k). { intros <-. rewrite (proj2 (str_eqb_eq _ _) eq_refl) in E. discriminate. }
    fold (hidden (Datatypes.S i) n). rewrite IH by lia. cbn [option_map]. f_equal. apply Z.eqb_neq in D. now rewrite D.
Qed.
Lemma hide_frags : forall i n k, map (fun f => mkFragment (f_class f) false) (frags i n k) = hidden i n.
Proof. intros. unfold frags, hidden. rewrite map_map. reflexivity. Qed.
Lemma hide_html : forall i n, map (fun f => mkFragment (f_class f) false)
  (map (fun index => mkFragment (step_class (Z.of_nat index + 1)) true) (seq i n)) = hidden i n.
Proof. intros. unfold hidden. rewrite map_map. reflexivity. Qed.

(** The panel of a slide of [n] fragments at fragment [k]. *)
Definition state_of (id n : nat) (k : Z) : panel :=
  if Nat.ltb 1 n
  then mkPanel id (frags 0 n k) (Some (mkControls (k >=? Z.of_nat n) (k <=? 1) (fragment_text k)))
  else html id n.
Definition script_of (id n : nat) (k : Z) : script := mkScript id (Z.of_nat n) k.

Lemma with_controls_at : forall id f a p b c, (forall q, In q a -> p_id q <> id) -> p_id p = id -> p_controls p = Some c ->
  with_controls id f (a ++ p :: b) = Some (a ++ mkPanel id (p_fragments p) (Some (f c)) :: b).
Proof.
  intros id f a p b c A P C. induction a as [|q a IH]; cbn [app with_controls].
  - rewrite C, P, Nat.eqb_refl. reflexivity.
  - assert (Q := A q (or_introl eq_refl)). apply Nat.eqb_neq in Q. rewrite Q.
    rewrite IH by (intros; apply A; now right). now destruct (p_controls q).
Qed.
Lemma hide_all_at : forall id a p b, (forall q, In q (a ++ b) -> p_id q <> id) -> p_id p = id ->
  hide_all id (a ++ p :: b) = a ++ mkPanel id (map (fun f => mkFragment (f_class f) false) (p_fragments p)) (p_controls p) :: b.
Proof.
  intros id a p b N P. unfold hide_all. rewrite map_app. cbn [map]. rewrite P, Nat.eqb_refl.
  assert (G : forall l, (forall q, In q l -> p_id q <> id) -> map (fun p => if Nat.eqb (p_id p) id
                then mkPanel (p_id p) (map (fun f => mkFragment (f_class f) false) (p_fragments p)) (p_controls p) else p) l = l).
  { induction l as [|q l IH]; intro H; [reflexivity|]. cbn [map]. rewrite IH by (intros; apply H; now right).
    assert (Q := H q (or_introl eq_refl)). apply Nat.eqb_neq in Q. now rewrite Q. }
  rewrite !G; [reflexivity| |]; intros q Hq; apply N, in_or_app; auto.
Qed.
Lemma show_first_at : forall id k a p b fs, (forall q, In q a -> p_id q <> id) -> p_id p = id ->
  show_class k (p_fragments p) = Some fs ->
  show_first id k (a ++ p :: b) = Some (a ++ mkPanel id fs (p_controls p) :: b).
Proof.
  intros id k a p b fs A P C. induction a as [|q a IH]; cbn [app show_first].
  - rewrite P, Nat.eqb_refl, C. reflexivity.
  - assert (Q := A q (or_introl eq_refl)). apply Nat.eqb_neq in Q. rewrite Q.
    rewrite IH by (intros; apply A; now right). reflexivity.
Qed.
Lemma update_state_at : forall id n k a p b c, (1 < n)%nat -> 1 <= k <= Z.of_nat n ->
  (forall q, In q (a ++ b) -> p_id q <> id) -> p_id p = id -> p_controls p = Some c ->
  map (fun f => mkFragment (f_class f) false) (p_fragments p) = hidden 0 n ->
  forall act, update_state (mkScript id (Z.of_nat n) act) k (a ++ p :: b) = a ++ state_of id n k :: b.
Proof.
  intros id n k a p b c N K A P C H act. unfold update_state. cbn [s_id s_max].
  assert (A' : forall q, In q a -> p_id q <> id) by (intros; apply A, in_or_app; auto).
  rewrite (with_controls_at id _ a p b c A' P C).
  rewrite (with_controls_at id _ a (mkPanel id _ _) b _ A' eq_refl eq_refl). cbn [p_fragments].
  rewrite (with_controls_at id _ a (mkPanel id _ _) b _ A' eq_refl eq_refl). cbn [p_fragments].
  cbv zeta. rewrite (hide_all_at id a (mkPanel id _ _) b A eq_refl). cbn [p_fragments p_controls]. rewrite H.
  rewrite (show_first_at id _ a (mkPanel id _ _) b (frags 0 n k) A' eq_refl).
  - cbn [p_controls c_next c_previous]. unfold state_of. now rewrite (proj2 (Nat.ltb_lt 1 n) N).
  - cbn [p_fragments]. apply show_class_hidden. lia.
Qed.

(** The page after events: one panel per displayed slide, in order, one script per slide of
    several fragments. *)
Definition good (g : page) (l : list (nat * nat * Z)) : Prop :=
  NoDup (map (fun x => fst (fst x)) l) /\
  (forall id n k, In (id, n, k) l -> 1 <= k /\ ((1 < n)%nat -> k <= Z.of_nat n)) /\
  g_doc g = map (fun x => state_of (fst (fst x)) (snd (fst x)) (snd x)) l /\
  g_scripts g = map (fun x => script_of (fst (fst x)) (snd (fst x)) (snd x))
                  (filter (fun x => Nat.ltb 1 (snd (fst x))) l).

Lemma state_of_id : forall id n k, p_id (state_of id n k) = id.
Proof. intros. unfold state_of. now destruct (Nat.ltb 1 n). Qed.
Lemma not_in_states : forall id (l : list (nat * nat * Z)), ~ In id (map (fun x => fst (fst x)) l) ->
  forall q, In q (map (fun x => state_of (fst (fst x)) (snd (fst x)) (snd x)) l) -> p_id q <> id.
Proof.
  intros id l N q Hq E. apply in_map_iff in Hq as (x & <- & Hx). rewrite state_of_id in E. apply N. rewrite <- E.
  apply (in_map (fun x => fst (fst x)) _ _ Hx).
Qed.

Lemma good_display : forall g l id n, good g l -> ~ In id (map (fun x => fst (fst x)) l) ->
  good (happen g (Display id n)) (l ++ [(id, n, 1)]).
Proof.
  intros g l id n (N & B & D & S) F. unfold good.
  assert (ND : NoDup (map (fun x => fst (fst x)) (l ++ [(id, n, 1)]))).
  { rewrite map_app. cbn [map fst]. clear - N F. induction (map (fun x : nat * nat * Z => fst (fst x)) l) as [|x m IH]; cbn; [repeat constructor; auto|].
    inversion N; subst. constructor; [|apply IH; [assumption|intro Q; apply F; now right]].
    rewrite in_app_iff. intros [Q|[->|[]]]; [contradiction|]. apply F. now left. }
  split; [exact ND|]. split.
  { intros i m k Hi. apply in_app_iff in Hi as [Hi|[Hi|[]]]; [eauto|]. injection Hi as <- <- <-. lia. }
  rewrite filter_app, !map_app. cbn [happen map fst snd filter]. destruct (Nat.ltb 1 n) eqn:L.
  - apply Nat.ltb_lt in L. cbn [g_doc g_scripts s_active map fst snd]. rewrite D, S. split; [|reflexivity].
    assert (H := update_state_at id n 1 (map (fun x => state_of (fst (fst x)) (snd (fst x)) (snd x)) l) (html id n) []
                   (mkControls false false (pys "Fragment: 1")) L ltac:(lia)).
    rewrite app_nil_r in H. apply H; [now apply not_in_states|reflexivity| |apply hide_html].
    unfold html. cbn [p_controls]. now rewrite (proj2 (Nat.ltb_lt 1 n) L).
  - cbn [g_doc g_scripts map]. rewrite D, S, app_nil_r. split; [|reflexivity]. unfold state_of. now rewrite L.
Qed.

Definition bumped (b : bool) (id : nat) (x : nat * nat * Z) : nat * nat * Z :=
  if Nat.eqb (fst (fst x)) id && Nat.ltb 1 (snd (fst x))
  then (fst (fst x), snd (fst x), moved (Z.of_nat (snd (fst x))) b (snd x)) else x.
Lemma bumped_id : forall b id x, fst (fst (bumped b id x)) = fst (fst x) /\ snd (fst (bumped b id x)) = snd (fst x).
Proof. intros b id [[i n] k]. unfold bumped. cbn [fst snd]. destruct (Nat.eqb i id && Nat.ltb 1 n)%bool; split; reflexivity. Qed.
Lemma move_scripts_other : forall id o ss d, (forall s, In s ss -> s_id s <> id) -> move_scripts id o ss d = (ss, d).
Proof.
  induction ss as [|s ss IH]; intros d H; [reflexivity|]. cbn [move_scripts].
  assert (Q := H s (or_introl eq_refl)). apply Nat.eqb_neq in Q. rewrite Q, IH by (intros; apply H; now right). reflexivity.
Qed.
Lemma move_scripts_app : forall id o a b d, (forall s, In s a -> s_id s <> id) ->
  move_scripts id o (a ++ b) d = let (ss, d) := move_scripts id o b d in (a ++ ss, d).
Proof.
  induction a as [|s a IH]; intros b d H; cbn [app move_scripts]; [now destruct (move_scripts id o b d)|].
  assert (Q := H s (or_introl eq_refl)). apply Nat.eqb_neq in Q. rewrite Q, IH by (intros; apply H; now right).
  now destruct (move_scripts id o b d).
Qed.
Lemma find_at : forall id a p b, (forall q, In q a -> p_id q <> id) -> p_id p = id ->
  find (fun p => Nat.eqb (p_id p) id) (a ++ p :: b) = Some p.
Proof.
  intros id a p b A P. induction a as [|q a IH]; cbn [app find]; [now rewrite P, Nat.eqb_refl|].
  assert (Q := A q (or_introl eq_refl)). apply Nat.eqb_neq in Q. rewrite Q. apply IH. intros; apply A; now right.
Qed.
Lemma find_none : forall id l, (forall q, In q l -> p_id q <> id) -> find (fun p => Nat.eqb (p_id p) id) l = None.
Proof.
  induction l as [|q l IH]; intro H; [reflexivity|]. cbn [find].
  assert (Q := H q (or_introl eq_refl)). apply Nat.eqb_neq in Q. rewrite Q. apply IH. intros; apply H; now right.
Qed.

Lemma moved_range : forall n b k, 1 <= k <= n -> 1 <= moved n b k <= n.
Proof. intros n [] k H; unfold moved; lia. Qed.

Lemma good_click : forall g l b id, good g l -> good (happen g (Click b id)) (map (bumped b id) l).
Proof.
  intros g l b id (N & B & D & S).
  assert (ND : NoDup (map (fun x => fst (fst x)) (map (bumped b id) l))).
  { rewrite map_map. rewrite (map_ext _ (fun x => fst (fst x))); [exact N|]. intro x. apply bumped_id. }
  assert (RG : forall i n k, In (i, n, k) (map (bumped b id) l) -> 1 <= k /\ ((1 < n)%nat -> k <= Z.of_nat n)).
  { intros i n k H. apply in_map_iff in H as ([[i0 n0] k0] & E & H). apply B in H. unfold bumped in E. cbn [fst snd] in E.
    destruct (Nat.eqb i0 id && Nat.ltb 1 n0)%bool eqn:Q; inversion E; subst; [|exact H].
    apply andb_true_iff in Q as [_ Q]. apply Nat.ltb_lt in Q.
    assert (R := moved_range (Z.of_nat n) b k0 ltac:(lia)). lia. }
  unfold good. split; [exact ND|]. split; [exact RG|]. cbn [happen].
  destruct (in_dec Nat.eq_dec id (map (fun x => fst (fst x)) l)) as [I|I].
  2: { assert (E : map (bumped b id) l = l).
       { rewrite <- (map_id l) at 2. apply map_ext_in. intros [[i n] k] Hx. unfold bumped. cbn.
         destruct (Nat.eqb_spec i id) as [->|]; [|reflexivity]. elim I. apply (in_map (fun x => fst (fst x)) _ _ Hx). }
       rewrite E. unfold button_disabled. rewrite D, find_none by (now apply not_in_states). auto. }
  apply in_map_iff in I as ([[i n] k] & E & Hx). cbn in E. subst i.
  apply in_split in Hx as (l1 & l2 & ->).
  assert (N12 : forall x, In x (l1 ++ l2) -> fst (fst x) <> id).
  { intros x Hx Q. rewrite map_app in N. cbn [map fst] in N. apply NoDup_remove_2 in N. apply N.
    rewrite <- map_app, <- Q. apply (in_map (fun x => fst (fst x)) _ _ Hx). }
  assert (B12 : forall l', (forall x, In x l' -> fst (fst x) <> id) -> map (bumped b id) l' = l').
  { intros l' H. rewrite <- (map_id l') at 2. apply map_ext_in. intros x Hx. unfold bumped.
    destruct (Nat.eqb_spec (fst (fst x)) id) as [Q|]; [|reflexivity]. now elim (H x Hx). }
  rewrite map_app. cbn [map]. rewrite !B12 by (intros; apply N12, in_or_app; auto).
  rewrite map_app in D. cbn [map fst snd] in D.
  assert (P12 : forall q, In q (map (fun x => state_of (fst (fst x)) (snd (fst x)) (snd x)) l1 ++
                                map (fun x => state_of (fst (fst x)) (snd (fst x)) (snd x)) l2) -> p_id q <> id).
  { intros q Hq. rewrite <- map_app in Hq. apply in_map_iff in Hq as (x & <- & Hx). rewrite state_of_id. auto. }
  set (a := map _ l1) in *. set (c := map _ l2) in *.
  assert (FD : find (fun p => Nat.eqb (p_id p) id) (g_doc g) = Some (state_of id n k)).
  { rewrite D. apply find_at; [intros; apply P12, in_or_app; auto|apply state_of_id]. }
  unfold button_disabled. rewrite FD. unfold bumped. cbn [fst snd]. rewrite Nat.eqb_refl. cbn [andb].
  destruct (Nat.ltb 1 n) eqn:L.
  - assert (L' := proj1 (Nat.ltb_lt 1 n) L).
    destruct (B id n k (in_elt _ _ _)) as [K1 K2]. specialize (K2 L').
    assert (CT : p_controls (state_of id n k) = Some (mkControls (k >=? Z.of_nat n) (k <=? 1) (fragment_text k)))
      by (unfold state_of; now rewrite L).
    rewrite CT. cbn [c_next c_previous].
    assert (DIS : (if b then k >=? Z.of_nat n else k <=? 1) = true -> moved (Z.of_nat n) b k = k).
    { destruct b; unfold moved; intro Q; [apply Z.geb_le in Q|apply Z.leb_le in Q]; lia. }
    assert (EN : (if b then k >=? Z.of_nat n else k <=? 1) = false -> moved (Z.of_nat n) b k = k + (if b then 1 else -1)).
    { destruct b; unfold moved; intro Q; [apply Z.geb_leb in Q || (rewrite Z.geb_leb in Q; apply Z.leb_gt in Q)|apply Z.leb_gt in Q]; lia. }
    destruct (if b then k >=? Z.of_nat n else k <=? 1) eqn:Q.
    + rewrite DIS by reflexivity. split; [rewrite D, map_app; reflexivity|exact S].
    + rewrite S, filter_app, map_app. cbn [filter fst snd map]. rewrite L. cbn [map fst snd].
      assert (O : forall l' s, (forall x, In x l' -> fst (fst x) <> id) ->
                In s (map (fun x => script_of (fst (fst x)) (snd (fst x)) (snd x)) (filter (fun x => Nat.ltb 1 (snd (fst x))) l')) -> s_id s <> id).
      { intros l' s H Hs. apply in_map_iff in Hs as (x & <- & Hx). apply filter_In in Hx as [Hx _]. now apply H. }
      rewrite move_scripts_app by (intros s; apply O; intros; apply N12, in_or_app; auto).
      cbn [move_scripts script_of s_id]. rewrite Nat.eqb_refl. unfold move_step. cbn [script_of s_active s_max s_id].
      assert (KK := EN eq_refl). assert (R := moved_range (Z.of_nat n) b k ltac:(lia)). rewrite KK in R.
      replace ((k + (if b then 1 else -1) >=? 1) && (k + (if b then 1 else -1) <=? Z.of_nat n))%bool with true
        by (symmetry; apply andb_true_iff; split; [rewrite Z.geb_leb|]; apply Z.leb_le; lia).
      cbn [s_active]. rewrite D.
      rewrite (update_state_at id n (k + (if b then 1 else -1)) a (state_of id n k) c
                 (mkControls (k >=? Z.of_nat n) (k <=? 1) (fragment_text k)) L' R P12 (state_of_id _ _ _));
        [|unfold state_of; now rewrite L|unfold state_of; rewrite L; apply hide_frags].
      rewrite move_scripts_other by (intros s; apply O; intros; apply N12, in_or_app; auto).
      cbn [g_doc g_scripts]. rewrite filter_app, !map_app. cbn [filter map fst snd]. rewrite L, KK. cbn [map fst snd].
      split; reflexivity.
  - assert (CT : p_controls (state_of id n k) = None) by (unfold state_of; rewrite L; unfold html; cbn [p_controls]; now rewrite L).
    rewrite CT. split; [rewrite D, map_app; reflexivity|exact S].
Qed.

Lemma displayed_app : forall a b, displayed (a ++ b) = displayed a ++ displayed b.
Proof. induction a as [|[id n|x id] a IH]; intro b; cbn [app displayed]; [reflexivity|now rewrite IH|apply IH]. Qed.
Lemma page_good : forall es, NoDup (displayed es) -> exists l, good (page_after es) l /\
  map (fun x => fst (fst x)) l = displayed es /\ forall id n k, current es id n k -> In (id, n, k) l.
Proof.
  induction es as [|e es IH] using rev_ind; intro N.
  - exists []. split; [|split; [reflexivity|]].
    + split; [constructor|]. split; [intros ? ? ? []|]. split; reflexivity.
    + intros id n k H. inversion H; eapply app_cons_not_nil; eauto.
  - unfold page_after. rewrite fold_left_app. cbn [fold_left]. fold (page_after es). rewrite displayed_app in *.
    assert (N1 : NoDup (displayed es)).
    { clear - N. induction (displayed es) as [|x m IH]; [constructor|]. inversion N as [|? ? N1 N2]; subst. constructor; [|auto].
      intro Q. apply N1, in_or_app. auto. }
    destruct (IH N1) as (l & G & M & C). destruct e as [id n|b id]; cbn [displayed] in *.
    + assert (F : ~ In id (displayed es)). { apply NoDup_remove_2 in N. now rewrite app_nil_r in N. }
      exists (l ++ [(id, n, 1)]). split; [apply good_display; [exact G|now rewrite M]|]. rewrite map_app, M. split; [reflexivity|].
      intros i m k H. apply in_or_app. inversion H as [es' ? ? E|es' ? ? ? ? ? H' D E|es' ? ? ? ? H' E|es' ? ? ? ? ? H' D E]; subst;
        apply app_inj_tail in E as [-> E]; try discriminate; injection E as -> ->; [right; now left|left; auto].
    + exists (map (bumped b id) l). split; [now apply good_click|]. rewrite app_nil_r. split.
      { rewrite map_map, <- M. apply map_ext. intro x. apply bumped_id. }
      intros i m k H. inversion H as [es' ? ? E|es' ? ? ? ? ? H' D E|es' ? ? k0 ? H' E|es' ? ? ? ? ? H' D E]; subst;
        apply app_inj_tail in E as [-> E]; try discriminate; injection E as -> ->; apply in_map_iff.
      * exists (id, m, k0). split; [|auto]. unfold bumped. cbn [fst snd]. rewrite Nat.eqb_refl. cbn [andb].
        now destruct (Nat.ltb 1 m).
      * exists (i, m, k). split; [|auto]. unfold bumped. cbn [fst snd]. apply Nat.eqb_neq in D. rewrite Nat.eqb_sym, D. reflexivity.
Qed.

(** For every sequence of displays and clicks the panel of a slide of several fragments
    shows its current fragment and no other one, with the text of this fragment; the buttons
    are disabled exactly at the ends. *)
Theorem C64_navigation : forall es id n k, NoDup (displayed es) -> current es id n k -> (1 < n)%nat ->
  1 <= k <= Z.of_nat n /\
  exists p, In p (g_doc (page_after es)) /\ p_id p = id /\ shows_only p n k /\ buttons p (Z.of_nat n) k.
Proof.
  intros es id n k N C L. destruct (page_good es N) as (l & (_ & B & D & _) & _ & H). apply H in C.
  destruct (B _ _ _ C) as [K1 K2]. specialize (K2 L). split; [lia|].
  exists (state_of id n k). split; [rewrite D; apply (in_map (fun x => state_of (fst (fst x)) (snd (fst x)) (snd x)) _ _ C)|].
  split; [apply state_of_id|]. unfold state_of. rewrite (proj2 (Nat.ltb_lt 1 n) L). split.
  - split; [unfold frags; cbn; now rewrite map_length, seq_length|]. cbn [p_fragments]. intros i f Hf.
    unfold frags in Hf.
    assert (E : f = mkFragment (step_class (Z.of_nat i + 1)) (Z.of_nat i + 1 =? k)).
    { rewrite nth_error_map in Hf. assert (I : (i < n)%nat).
      { destruct (nth_error (seq 0 n) i) eqn:Q; [|discriminate]. rewrite <- (seq_length n 0). apply nth_error_Some. congruence. }
      rewrite (nth_error_nth' _ 0%nat) in Hf by now rewrite seq_length. rewrite seq_nth in Hf by exact I. cbn [option_map Nat.add] in Hf. congruence. }
    subst f. cbn [f_display]. apply Z.eqb_eq.
  - eexists. split; [reflexivity|]. cbn [c_next c_previous c_text]. rewrite Z.geb_leb. repeat split.
    + intro Q. apply Z.leb_le in Q. lia.
    + intros ->. apply Z.leb_refl.
    + intro Q. apply Z.leb_le in Q. lia.
    + intros ->. reflexivity.
Qed.
Print Assumptions C64_navigation.

(** A slide of one fragment has no buttons and stays visible. *)
Theorem C64_single : forall es id n k, NoDup (displayed es) -> current es id n k -> (n <= 1)%nat ->
  exists p, In p (g_doc (page_after es)) /\ p_id p = id /\ p_controls p = None /\
    List.length (p_fragments p) = n /\ forall f, In f (p_fragments p) -> f_display f = true.
Proof.
  intros es id n k N C L. destruct (page_good es N) as (l & (_ & B & D & _) & _ & H). apply H in C.
  exists (state_of id n k). split; [rewrite D; apply (in_map (fun x => state_of (fst (fst x)) (snd (fst x)) (snd x)) _ _ C)|].
  split; [apply state_of_id|]. unfold state_of. apply Nat.ltb_ge in L. rewrite L. unfold html. rewrite L. cbn.
  split; [reflexivity|]. split; [now rewrite map_length, seq_length|]. intros f Hf. apply in_map_iff in Hf as (x & <- & _). reflexivity.
Qed.
Print Assumptions C64_single.

(** Every displayed slide has a current fragment, and there is one panel per slide. *)
Theorem C64_all_panels : forall es, NoDup (displayed es) ->
  map p_id (g_doc (page_after es)) = displayed es /\
  forall id, In id (displayed es) -> exists n k, current es id n k.
Proof.
  intros es N. split.
  - destruct (page_good es N) as (l & (_ & _ & D & _) & M & _). rewrite D, map_map, <- M. apply map_ext. intro x. apply state_of_id.
  - revert N. induction es as [|e es IH] using rev_ind; intros N id I; [destruct I|]. rewrite displayed_app in N, I.
    assert (N1 : NoDup (displayed es)).
    { clear - N. induction (displayed es) as [|x m IH]; [constructor|]. inversion N as [|? ? N1 N2]; subst. constructor; [|auto].
      intro Q. apply N1, in_or_app. auto. }
    apply in_app_iff in I as [I|I].
    + destruct (IH N1 _ I) as (n & k & C). destruct e as [i m|b i]; cbn [displayed] in *.
      * exists n, k. constructor; [exact C|]. intros ->. apply NoDup_remove_2 in N. apply N. now rewrite app_nil_r.
      * destruct (Nat.eq_dec i id) as [->|Q]; [eexists; eexists; eapply cu_click; exact C|exists n, k; now apply cu_click_other].
    + destruct e as [i m|b i]; cbn [displayed] in I; [|destruct I]. destruct I as [->|[]]. exists m, 1. constructor.
Qed.
Print Assumptions C64_all_panels.

Example C64_ex : let es := [Display 7 3; Click true 7; Display 9 12; Click true 7; Click true 7; Click false 9; Click true 9; Click false 7] in
  NoDup (displayed es) /\ current es 7 3 2 /\ current es 9 12 2.
Proof.
  cbv zeta. split; [repeat constructor; simpl; intuition discriminate|]. split.
  - apply (cu_click [_;_;_;_;_;_;_] 7 3 3 false). apply (cu_click_other [_;_;_;_;_;_] 7 3 3 true 9); [|discriminate].
    apply (cu_click_other [_;_;_;_;_] 7 3 3 false 9); [|discriminate].
    apply (cu_click [_;_;_;_] 7 3 3 true). apply (cu_click [_;_;_] 7 3 2 true).
    apply (cu_other [_;_] 7 3 2 9 12); [|discriminate]. apply (cu_click [_] 7 3 1 true). apply (cu_display [] 7 3).
  - apply (cu_click_other [_;_;_;_;_;_;_] 9 12 2 false 7); [|discriminate]. apply (cu_click [_;_;_;_;_;_] 9 12 1 true).
    apply (cu_click [_;_;_;_;_] 9 12 1 false). apply (cu_click_other [_;_;_;_] 9 12 1 true 7); [|discriminate].
    apply (cu_click_other [_;_;_] 9 12 1 true 7); [|discriminate]. apply (cu_display [_;_] 9 12).
Qed.
