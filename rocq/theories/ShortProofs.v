(** Lemmas about the shortcuts: what later calls keep of a box, and which arguments arrive. *)
From Coq Require Import String List ZArith NArith QArith Bool Lia Lqa Arith Permutation.
From Verif Require Import Py PyFacts ShowModel LayoutModel LayoutSpec LayoutProofs LayoutProofs2 LayoutProps
  SlideModel SlideSpec SlideProofs ListModel ListSpec ListProofs ListLinks ShortModel.
Import ListNotations.

(** What no later call changes of a layout: its identity, position arguments, kinds of sizes
    and direction. *)
Definition kind (v : size_value) := (sv_ratio v, sv_fill v, sv_lazy v).
Definition traits (h : lhead) := (l_id h, l_x h, l_y h, kind (l_width h), kind (l_height h), l_horizontal h).
Definition placed (l : layout) (hp hk : lhead) : Prop :=
  exists p k, within p l /\ In k (kids p) /\ traits (head p) = traits hp /\ traits (head k) = traits hk.
Definition keeps (n n' : layout) : Prop :=
  traits (head n) = traits (head n') /\ forall hp hk, placed n hp hk -> placed n' hp hk.

Lemma placed_kid : forall d h cs hp hk, In d cs -> placed d hp hk -> placed (Node h cs) hp hk.
Proof. intros d h cs hp hk H (p & k & W & R). exists p, k. split; [econstructor; eauto|auto]. Qed.
Lemma placed_here : forall h cs k hp hk, In k cs -> traits h = traits hp -> traits (head k) = traits hk ->
  placed (Node h cs) hp hk.
Proof. intros h cs k hp hk H A B. exists (Node h cs), k. repeat split; auto. constructor. Qed.
Lemma placed_inv : forall h cs hp hk, placed (Node h cs) hp hk ->
  (exists k, In k cs /\ traits h = traits hp /\ traits (head k) = traits hk) \/ exists d, In d cs /\ placed d hp hk.
Proof.
  intros h cs hp hk (p & k & W & Hk & E1 & E2).
  remember (Node h cs) as n eqn:En. destruct W as [n|p d h' cs' Hd W]; subst.
  - left. exists k. auto.
  - injection En as -> ->. right. exists d. split; [exact Hd|]. exists p, k. auto.
Qed.
Lemma keeps_refl : forall n, keeps n n.
Proof. split; auto. Qed.
Lemma keeps_ctx : forall d pre post n n', keeps n n' -> keeps (Node d (pre ++ n :: post)) (Node d (pre ++ n' :: post)).
Proof.
  intros d pre post n n' [E H]. split; [reflexivity|]. intros hp hk L.
  apply placed_inv in L as [(k & Hk & Ep & Ek)|(e & He & L)].
  - apply in_elt_inv in Hk as [<-|Hk].
    + apply (placed_here d _ n'); [apply in_elt|exact Ep|congruence].
    + apply (placed_here d _ k); auto. apply in_app_iff in Hk. apply in_or_app. simpl. tauto.
  - apply in_elt_inv in He as [<-|He].
    + eapply placed_kid; [apply in_elt|]. auto.
    + eapply placed_kid; [|exact L]. apply in_app_iff in He. apply in_or_app. simpl. tauto.
Qed.
Lemma keeps_fill : forall C n n', keeps n n' -> keeps (lfill C n) (lfill C n').
Proof. induction C as [|[[d p] q] C IH]; intros n n' H; [exact H|]. simpl. apply IH. now apply keeps_ctx. Qed.
Lemma keeps_add : forall h ls l p, keeps (Node h ls) (add_kid (Node h ls) l p).
Proof.
  intros h ls l p. split; [reflexivity|]. intros hp hk L. cbn [add_kid].
  assert (I : forall k, In k ls -> In k (if p then l :: ls else ls ++ [l])).
  { intros k Hk. destruct p; [now right|]. apply in_or_app. auto. }
  apply placed_inv in L as [(k & Hk & Ep & Ek)|(e & He & L)].
  - apply (placed_here h _ k); auto.
  - eapply placed_kid; eauto.
Qed.
Lemma keeps_head : forall h h' ls, traits h = traits h' -> keeps (Node h ls) (Node h' ls).
Proof.
  intros h h' ls E. split; [exact E|]. intros hp hk L.
  apply placed_inv in L as [(k & Hk & Ep & Ek)|(e & He & L)].
  - apply (placed_here h' _ k); auto. congruence.
  - eapply placed_kid; eauto.
Qed.
Lemma kind_ensure : forall v q, kind (ensure v q) = kind v.
Proof. intros v q. unfold ensure. destruct (Qle_bool q (sv_min v)); reflexivity. Qed.
Lemma traits_width : forall h q, traits (ensure_width h q) = traits h.
Proof. intros h q. unfold traits, ensure_width. cbn. now rewrite kind_ensure. Qed.
Lemma traits_height : forall h q, traits (ensure_height h q) = traits h.
Proof. intros h q. unfold traits, ensure_height. cbn. now rewrite kind_ensure. Qed.
Lemma text_layout_traits : forall t w h fit hd cs hd', Node hd' cs = text_layout t w h fit (Node hd cs) ->
  traits hd = traits hd'.
Proof.
  intros t w h fit hd cs hd' E. unfold text_layout in E. injection E as ->.
  match goal with |- _ = traits (mkHead (l_id ?x) _ _ _ _ _ _ _ _ _ _ _ _) => transitivity (traits x); [|reflexivity] end.
  destruct (negb fit || match l_wdef hd with ANone => true | _ => false end),
    (negb fit || match l_hdef hd with ANone => true | _ => false end);
    rewrite ?traits_height, ?traits_width; reflexivity.
Qed.
Lemma image_request_traits : forall hd cs w h hd', set_image_size_request (Node hd cs) w h = Ok (Node hd' cs) ->
  traits hd = traits hd'.
Proof.
  intros hd cs w h hd' H. unfold set_image_size_request in H.
  destruct (min_children_size _ _) as [mx my]. cbv zeta in H.
  destruct (Qeq_bool h 0 || Qeq_bool w 0)%bool, (l_wdef hd), (l_hdef hd); try discriminate;
    injection H as <-; now rewrite traits_height, traits_width.
Qed.
Lemma perform_layout_keeps : forall s c s' r, wf s -> perform s c = (s', r) -> keeps (sl_layout s) (sl_layout s').
Proof.
  intros s [r a|r k] s' res W H; simpl in H.
  - apply box_call_outcome in H; auto.
    destruct H as [Hg|e Hl|e l C b cs LC h ls Hl Hf Es Eh Hs
                  |e l C b cs LC h ls show Hl Hf Es Eh Hs Ha
                  |l C b cs LC h ls show z cs' Hl Hf Es Eh Hs Hz Ha]; try apply keeps_refl;
      cbn [sl_layout]; rewrite Es; apply keeps_fill, keeps_add.
  - apply item_call_outcome in H; auto.
    destruct H as [e|C b b' cs LC h h' ls m st Hf Es Eh Eh' Eb Ez Hk Hh Hst]; [apply keeps_refl|].
    cbn [sl_layout]; rewrite Es. apply keeps_fill, keeps_head.
    destruct k as [|w q fit|w q steps].
    + now subst h'.
    + eapply text_layout_traits; eauto.
    + eapply image_request_traits; eauto.
Qed.
Lemma reachable_keeps : forall s s', wf s -> reachable s s' -> keeps (sl_layout s) (sl_layout s').
Proof.
  intros s s' W H. induction H as [|s1 c s2 r H IH P]; [apply keeps_refl|].
  destruct IH as [A B]. destruct (perform_layout_keeps s1 c s2 r (reachable_wf _ _ W H) P) as [A' B'].
  split; [congruence|auto].
Qed.

(** A successful call of box() puts the new layout below the layout of the box. *)
Lemma placed_fill : forall LC n hp hk, placed n hp hk -> placed (lfill LC n) hp hk.
Proof.
  induction LC as [|[[e p] q] LC IH]; intros n hp hk L; [exact L|]. simpl. apply IH.
  eapply placed_kid; [apply in_elt|exact L].
Qed.
Lemma box_call_placed : forall s r a s' id, wf s -> box_call s r a = (s', Ok id) ->
  exists b cs l k, get_box r (sl_box s) = Some (b, cs) /\ get_layout (b_id b) (sl_layout s) = Some l /\
    l_id (head l) = b_id b /\ new_layout id (ba_layout a) = Ok k /\ l_id (head k) = id /\
    placed (sl_layout s') (head l) (head k).
Proof.
  intros s r a s' id W H. unfold box_call in H.
  destruct (get_box r (sl_box s)) as [[b cs]|] eqn:G; [|discriminate].
  destruct (wf_found s r b cs W G) as (C & LC & h & ls & F & Es & Eh).
  destruct (new_layout (sl_next s) (ba_layout a)) as [k|] eqn:El; [|discriminate].
  destruct (parse_show (ba_show a) (Some (sl_max s))) as [show|]; [|discriminate]. cbv zeta in H.
  destruct (add_child _ _ _ _ cs) as [cs'|]; [|discriminate]. injection H as <- <-.
  exists b, cs, (Node h ls), k. split; [reflexivity|]. split.
  { rewrite Es, <- Eh. apply get_layout_fill. rewrite <- Es. apply (wf_lnodup s W). }
  split; [exact Eh|]. split; [exact El|].
  destruct (new_layout_head _ _ _ El) as (hl & -> & Ei & _). split; [exact Ei|].
  cbn [sl_layout set_tree set_max sl_box]. rewrite Es, <- Eh, upd_layout_fill by (rewrite <- Es; apply (wf_lnodup s W)).
  apply placed_fill. cbn [add_kid]. apply (placed_here h _ (Node hl [])); [|reflexivity|reflexivity].
  destruct (ba_prepend a); [now left|]. apply in_or_app. right. now left.
Qed.

(** ** Keyword arguments *)

(** The position and size arguments, numbered as in [key]. *)
Definition geo (n : nat) (a : box_args) : arg :=
  let l := ba_layout a in
  match n with 0 => a_x l | 1 => a_y l | 2 => a_width l | _ => a_height l end%nat.
Definition value_of (k : kwarg) : option arg :=
  match k with Kx v | Ky v | Kwidth v | Kheight v => Some v | _ => None end.
(** The value that a call with the keywords [d] gives to the argument [n]. *)
Fixpoint lookup (n : nat) (d : list kwarg) : option arg :=
  match d with
  | [] => None
  | k :: d' => match lookup n d' with
               | Some v => Some v
               | None => if Nat.eqb (key k) n then value_of k else None
               end
  end.
Lemma set_kwarg_geo : forall n a k a', (n < 4)%nat -> set_kwarg a k = Ok a' ->
  geo n a' = match (if Nat.eqb (key k) n then value_of k else None) with Some v => v | None => geo n a end.
Proof.
  intros n a k a' Hn H. destruct n as [|[|[|[|n]]]]; [..|lia];
    destruct k; cbn [set_kwarg] in H; try discriminate; injection H as <-; reflexivity.
Qed.
Lemma set_kwargs_geo : forall n d a a', (n < 4)%nat -> set_kwargs a d = Ok a' ->
  geo n a' = match lookup n d with Some v => v | None => geo n a end.
Proof.
  intros n d. induction d as [|k d IH]; intros a a' Hn H; cbn [set_kwargs] in H; [now injection H as <-|].
  destruct (set_kwarg a k) as [a1|] eqn:E; [|discriminate]. cbn [rbind] in H.
  rewrite (IH a1 a' Hn H). cbn [lookup]. destruct (lookup n d); [reflexivity|]. exact (set_kwarg_geo n a k a1 Hn E).
Qed.
Lemma lookup_app : forall n d e, lookup n (d ++ e) = match lookup n e with Some v => Some v | None => lookup n d end.
Proof.
  intros n d e. induction d as [|k d IH]; cbn [app lookup]; [now destruct (lookup n e)|].
  rewrite IH. now destruct (lookup n e).
Qed.
Lemma lookup_key : forall n d, (n < 4)%nat -> has_key n d = match lookup n d with Some _ => true | None => false end.
Proof.
  intros n d Hn. induction d as [|k d IH]; [reflexivity|]. unfold has_key in *. cbn [existsb lookup]. rewrite IH.
  destruct (lookup n d); [now rewrite orb_true_r|]. rewrite orb_false_r.
  destruct (Nat.eqb_spec (key k) n) as [E|E]; [|reflexivity]. subst n. destruct k; cbn in *; try lia; reflexivity.
Qed.
Lemma lookup_setdefault : forall n k d, (n < 4)%nat -> (key k < 4)%nat ->
  lookup n (setdefault k d) = match lookup n d with
                              | Some v => Some v
                              | None => if Nat.eqb (key k) n then value_of k else None
                              end.
Proof.
  intros n k d Hn Hk. unfold setdefault. rewrite (lookup_key (key k) d Hk).
  destruct (lookup (key k) d) as [v|] eqn:E.
  - destruct (lookup n d) eqn:E'; [reflexivity|]. destruct (Nat.eqb_spec (key k) n) as [K|]; [|reflexivity].
    rewrite K in E. congruence.
  - rewrite lookup_app. cbn [lookup].
    destruct (Nat.eqb_spec (key k) n) as [<-|N]; [rewrite E|now destruct (lookup n d)].
    destruct k; cbn in *; try lia; reflexivity.
Qed.
