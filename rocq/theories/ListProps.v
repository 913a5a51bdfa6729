(** C62, C63, C84: lists. *)
From Coq Require Import String List ZArith NArith QArith Bool Lia Lqa Arith.
From Verif Require Import Py PyFacts ShowModel ShowSpec ShowProofs LayoutModel LayoutSpec LayoutProofs LayoutProofs2 LayoutProps SlideModel SlideSpec SlideProofs ListModel ListSpec ListProofs ListLinks.
Import ListNotations.
Local Open Scope Z_scope.

Lemma snoc_split : forall A (pre post h : list A) x e, pre ++ x :: post = h ++ [e] ->
  (post = [] /\ pre = h /\ x = e) \/ exists post', post = post' ++ [e] /\ h = pre ++ x :: post'.
Proof.
  intros A pre post h x e H. destruct post as [|y post] using rev_ind.
  - left. apply app_inj_tail in H as [-> ->]. auto.
  - right. exists post. rewrite app_comm_cons, app_assoc in H. apply app_inj_tail in H as [<- ->]. auto.
Qed.
Lemma items_app : forall n a b, items n (a ++ b) = items n a + items n b.
Proof.
  induction a as [|[o r] a IH]; intro b; [reflexivity|]. cbn [app items]. rewrite IH.
  destruct o; try reflexivity. destruct (Nat.eqb n0 n); lia.
Qed.

Section Measure.
Variable measure : str -> Q * Q.
Notation ran := (ran measure).
Notation act := (act measure).

Lemma act_item_unknown : forall s n lab p args, nth_error (ls_lists s) n = None ->
  act s (OItem n lab p args) = (s, Err EAttribute).
Proof. intros. cbn [ListModel.act]. unfold item. now rewrite H. Qed.
Lemma act_sub_unknown : forall s n d st i lab lv args, nth_error (ls_lists s) n = None ->
  act s (OSub n d st i lab lv args) = (s, Err EAttribute).
Proof. intros. cbn [ListModel.act]. unfold sublist. now rewrite H. Qed.

Lemma label_or_some : forall l d, label_or l d <> None.
Proof. intros l d. unfold label_or. destruct (label_true l) eqn:E; [|discriminate]. now destruct l. Qed.
Lemma label_or_reads : forall l d, reads d -> reads_opt l -> reads_opt (label_or l d).
Proof. intros l d D L. unfold label_or. destruct (label_true l); [exact L|exact D]. Qed.

(** ** C62 *)

(** The last number of a list moves by the item() calls on it. *)
Lemma counters_snoc : forall h n c, counters h n c -> forall e,
  exists v k, c = v ++ [k] /\ counters (h ++ [e]) n (v ++ [k + items n [e]]).
Proof.
  intros h n c H e.
  destruct H as [pre p d i pad lab st lv t args n post|pre m d st i lab args n post v H|pre m d st i lab lv args n post];
    do 2 eexists; (split; [reflexivity|]); rewrite <- app_assoc; cbn [app];
    rewrite <- Z.add_assoc, <- items_app; now constructor.
Qed.
Lemma counters_last : forall h e n c, counters (h ++ [e]) n c ->
  (exists v k, counters h n (v ++ [k]) /\ c = v ++ [k + items n [e]]) \/
  (snd e = Ok n /\ match fst e with
     | OTop _ _ _ _ _ st lv _ _ => c = given lv [] ++ [st - 1]
     | OSub m _ st _ _ None _ => exists v, counters h m v /\ c = v ++ [given st 1 - 1]
     | OSub m _ st _ _ (Some lv) _ => c = lv ++ [given st 1 - 1]
     | _ => False
     end).
Proof.
  intros h e n c H. remember (h ++ [e]) as g eqn:E.
  destruct H as [pre p d i pad lab st lv t args n post|pre m d st i lab args n post v H|pre m d st i lab lv args n post];
    apply snoc_split in E as [(-> & -> & <-)|(post' & -> & ->)].
  - right. cbn [snd fst items]. now rewrite Z.add_0_r.
  - left. rewrite items_app, Z.add_assoc. do 2 eexists. split; [|reflexivity]. constructor.
  - right. cbn [snd fst items]. rewrite Z.add_0_r. eauto.
  - left. rewrite items_app, Z.add_assoc. do 2 eexists. split; [|reflexivity]. now constructor.
  - right. cbn [snd fst items]. now rewrite Z.add_0_r.
  - left. rewrite items_app, Z.add_assoc. do 2 eexists. split; [|reflexivity]. constructor.
Qed.

Lemma ran_labels : forall s0 h s, ran s0 h s -> ls_lists s0 = [] ->
  (forall o r, In (o, r) h -> reading o) -> forall n b, nth_error (ls_lists s) n = Some b ->
  l_label b <> None /\ reads_opt (l_label b).
Proof.
  intros s0 h s H E. induction H as [|h s1 o s2 r H IH A]; intros R n b N.
  - rewrite E in N. now destruct n.
  - assert (R' : forall o r, In (o, r) h -> reading o) by (intros; eapply R, in_or_app; eauto).
    assert (Ro : reading o) by (apply (R o r), in_or_app; right; now left).
    destruct (act_new _ _ _ _ _ _ _ A N) as [[b1 N1]|(-> & L & E2 & K)].
    + destruct (act_lists _ _ _ _ _ _ _ A N1) as (b' & N' & (v & ->) & _).
      assert (b = set_level b1 v) as -> by congruence. cbn [set_level l_label]. eauto.
    + destruct o as [m lab p args|m d st i lab lv args|p d i pad lab st lv t args|c]; try contradiction; cbn [ListModel.act] in A.
      * destruct (nth_error (ls_lists s1) m) as [bm|] eqn:M.
        -- destruct (sublist_spec _ _ _ _ _ _ _ _ _ _ _ A M) as (_ & _ & _ & _ & box & a & _ & _ & Q).
           rewrite Q in E2. apply app_inv_head in E2. injection E2 as <-. cbn. destruct Ro.
           split; [apply label_or_some|now apply label_or_reads].
        -- unfold sublist in A. rewrite M in A. congruence.
      * apply top_spec in A as (_ & _ & _ & box & Q).
        rewrite Q in E2. apply app_inv_head in E2. injection E2 as <-. cbn. destruct Ro.
        split; [apply label_or_some|now apply label_or_reads].
Qed.

Lemma counters_sound : forall s0 h s, ran s0 h s -> ls_lists s0 = [] ->
  (forall o r, In (o, r) h -> reading o) -> forall n c, counters h n c ->
  exists b, nth_error (ls_lists s) n = Some b /\ l_level b = c.
Proof.
  intros s0 h s H E. induction H as [|h s1 o s2 r H IH A]; intros R n c C.
  - exfalso. inversion C; eapply app_cons_not_nil; eauto.
  - assert (R' : forall o r, In (o, r) h -> reading o) by (intros; eapply R, in_or_app; eauto).
    assert (Ro : reading o) by (apply (R o r), in_or_app; right; now left).
    assert (NEW : forall l b, nth_error (l ++ [b]) (List.length l) = Some (b : builder)).
    { intros l b. rewrite nth_error_app2, Nat.sub_diag by lia. reflexivity. }
    apply counters_last in C as [(v & k & C & ->)|(Er & K)].
    + destruct (IH R' n _ C) as (b & N & L).
      destruct (act_lists _ _ _ _ _ _ _ A N) as (b' & N' & _ & K1 & K2). exists b'. split; [exact N'|].
      destruct (ran_labels _ _ _ H E R' _ _ N) as [_ RL].
      destruct o as [m lab p args|m d st i lab lv args|p d i pad lab st lv t args|q]; cbn [items];
        try (rewrite K1 by exact I; rewrite L, Z.add_0_r; reflexivity).
      destruct (Nat.eqb_spec m n) as [->|D].
      * rewrite K2; [|split; [reflexivity|exact Ro]|exact RL]. rewrite L, bump_app. f_equal; f_equal; try lia.
      * rewrite K1 by exact D. rewrite L. f_equal; f_equal; try lia.
    + cbn [fst snd] in *. subst r.
      destruct o as [m lab p args|m d st i lab lv args|p d i pad lab st lv t args|q]; try contradiction; cbn [ListModel.act] in A.
      * destruct (nth_error (ls_lists s1) m) as [bm|] eqn:M.
        -- destruct (sublist_spec _ _ _ _ _ _ _ _ _ _ _ A M) as (_ & _ & -> & _ & box & a & _ & _ & Q).
           rewrite Q. eexists. split; [apply NEW|]. cbn [new_builder l_level].
           destruct lv as [lv|]; [now subst c|]. destruct K as (v & C & ->).
           destruct (IH R' m v C) as (bm' & M' & <-). assert (bm' = bm) as -> by congruence. reflexivity.
        -- unfold sublist in A. rewrite M in A. congruence.
      * apply top_spec in A as (_ & _ & -> & box & Q). rewrite Q. eexists. split; [apply NEW|].
        subst c. now destruct lv.
Qed.
Lemma counters_complete : forall s0 h s, ran s0 h s -> ls_lists s0 = [] ->
  forall n b, nth_error (ls_lists s) n = Some b -> exists c, counters h n c.
Proof.
  intros s0 h s H E. induction H as [|h s1 o s2 r H IH A]; intros n b N.
  - rewrite E in N. now destruct n.
  - destruct (act_new _ _ _ _ _ _ _ A N) as [[b1 N1]|(-> & L & E2 & K)].
    + destruct (IH _ _ N1) as (c & C). destruct (counters_snoc _ _ _ C (o, r)) as (v & k & _ & C'). eauto.
    + destruct o as [m lab p args|m d st i lab lv args|p d i pad lab st lv t args|q]; try contradiction; cbn [ListModel.act] in A.
      * destruct lv as [lv|]; [eexists; apply co_sub_given|].
        destruct (nth_error (ls_lists s1) m) as [bm|] eqn:M; [|unfold sublist in A; rewrite M in A; congruence].
        destruct (IH _ _ M) as (v & C). eexists. apply co_sub. exact C.
      * eexists. apply co_top.
Qed.

(** Full statement: the n-th item of a (sub)list carries the counters of the enclosing list
    when the sublist was made and then start + n - 1.  Missing: item() calls that raise are
    counted too (C62_failed_item_refuted), and labels must not change the list that they are
    given (C62_label_refuted). *)
Theorem C62_numbering_partial : forall s0 h s, ls_lists s0 = [] -> ran s0 h s ->
  (forall o r, In (o, r) h -> reading o) ->
  forall n c, counters h n c <-> exists b, nth_error (ls_lists s) n = Some b /\ l_level b = c.
Proof.
  intros s0 h s E H R n c. split.
  - eapply counters_sound; eauto.
  - intros (b & N & L). destruct (counters_complete _ _ _ H E _ _ N) as (c' & C).
    destruct (counters_sound _ _ _ H E R _ _ C) as (b' & N' & L'). congruence.
Qed.

(** What the label of an item shows: the counters that include this call.  No other call
    draws a label. *)
Theorem C62_labels : forall s0 h s o s' r, ls_lists s0 = [] -> ran s0 h s ->
  (forall o r, In (o, r) h -> reading o) -> reading o -> act s o = (s', r) ->
  match o, r with
  | OItem n _ _ _, Ok _ => exists c, counters (h ++ [(o, r)]) n c /\ ls_shown s' = ls_shown s ++ [(n, c)]
  | OItem n _ _ _, Err _ => ls_shown s' = ls_shown s \/
      exists c, counters (h ++ [(o, r)]) n c /\ ls_shown s' = ls_shown s ++ [(n, c)]
  | _, _ => ls_shown s' = ls_shown s
  end.
Proof.
  intros s0 h s o s' r E H R Ro A.
  destruct o as [n lab p args|n d st i lab lv args|p d i pad lab st lv t args|q].
  - destruct (nth_error (ls_lists s) n) as [b|] eqn:N.
    2: { rewrite act_item_unknown in A by exact N. injection A as <- <-. auto. }
    cbn [ListModel.act] in A.
    destruct (counters_complete _ _ _ H E _ _ N) as (c & C).
    destruct (counters_sound _ _ _ H E R _ _ C) as (b' & N' & L). assert (b' = b) as -> by congruence.
    destruct (counters_snoc _ _ _ C (OItem n lab p args, r)) as (v & k & -> & C').
    destruct (item_spec _ _ _ _ _ _ _ _ _ A N) as (_ & _ & (l & S1 & S2) & K).
    cbn [items] in C'. rewrite Nat.eqb_refl, Z.add_0_r in C'.
    cbv zeta in S2, K. cbn [set_level l_level] in S2, K. rewrite L, bump_app in S2, K.
    destruct r as [id|e].
    + exists (v ++ [k + 1]). split; [exact C'|]. destruct (K id eq_refl) as [K1 _]. apply K1; [exact Ro|].
      right. now destruct (ran_labels _ _ _ H E R _ _ N).
    + destruct S2 as [->| ->]; [left; now rewrite S1, app_nil_r|right; eauto].
  - cbn [ListModel.act] in A. destruct (nth_error (ls_lists s) n) as [b|] eqn:N.
    + destruct (sublist_spec _ _ _ _ _ _ _ _ _ _ _ A N) as (_ & Q & _). exact Q.
    + unfold sublist in A. rewrite N in A. now injection A as <- _.
  - now destruct (top_spec _ _ _ _ _ _ _ _ _ _ _ _ A) as (_ & Q & _).
  - cbn [ListModel.act] in A. destruct (perform (ls_slide s) q). now injection A as <- _.
Qed.

(** A call on one list changes no other list; only item() changes the numbers of a list. *)
Theorem C62_isolated : forall s o s' r m b, act s o = (s', r) -> nth_error (ls_lists s) m = Some b ->
  exists b', nth_error (ls_lists s') m = Some b' /\
    ((forall n lab p args, o = OItem n lab p args -> n <> m) -> b' = b).
Proof.
  intros s o s' r m b A N. destruct (act_lists _ _ _ _ _ _ _ A N) as (b' & N' & _ & K & _).
  exists b'. split; [exact N'|]. intro Q. apply K. destruct o; auto. eapply Q; eauto.
Qed.

(** ** C63, C84 *)

Record linv (s : state) : Prop := mkLinv {
  li_wf : wf (ls_slide s);
  li_box : forall n b, nth_error (ls_lists s) n = Some b -> isbox (ls_slide s) (l_parent b);
  li_args : forall n b, nth_error (ls_lists s) n = Some b -> proper (l_args b)
}.
Lemma new_args_proper : forall args, proper args ->
  proper (if has_key (key (Kshow ShowNone)) args then args else args ++ [Kshow last_plus]).
Proof.
  intros args P. cbn [key]. destruct (has_key 4 args) eqn:K; [exact P|].
  unfold proper in *. rewrite map_app. cbn [map]. 
  assert (Q := has_key_false _ _ K). clear K. induction args as [|k l IH]; cbn [map app]; [repeat constructor; simpl; tauto|].
  inversion P as [|? ? N P']; subst. constructor; [|apply IH; [exact P'|intros; apply Q; now right]].
  rewrite in_app_iff. intros [I|[I|[]]]; [now apply N|]. cbn in I. apply (Q k); [now left|auto].
Qed.
Lemma horizontal_proper : forall args, proper args -> proper (update args [Khorizontal true]).
Proof. intros. apply update_proper; [assumption|]. repeat constructor. simpl. tauto. Qed.

Lemma act_inv : forall s o s' r, linv s -> proper_op o -> act s o = (s', r) -> linv s'.
Proof.
  intros s o s' r [W B P] Po A. assert (RS := act_reachable _ _ _ _ _ A).
  assert (OLD : forall n b', nth_error (ls_lists s') n = Some b' -> (exists b, nth_error (ls_lists s) n = Some b) ->
            isbox (ls_slide s') (l_parent b') /\ proper (l_args b')).
  { intros n b' N' [b N]. destruct (act_lists _ _ _ _ _ _ _ A N) as (b2 & N2 & (v & ->) & _).
    assert (b' = set_level b v) as -> by congruence. cbn [set_level l_parent l_args].
    split; [eapply reachable_isbox; eauto|eauto]. }
  assert (ALL : forall n b', nth_error (ls_lists s') n = Some b' -> isbox (ls_slide s') (l_parent b') /\ proper (l_args b')).
  { intros n b' N'. destruct (act_new _ _ _ _ _ _ _ A N') as [O|(-> & L & E2 & K)]; [eauto|].
    destruct o as [m lab p args|m d st i lab lv args|p d i pad lab st lv t args|q]; try contradiction; cbn [ListModel.act] in A.
    - destruct (nth_error (ls_lists s) m) as [bm|] eqn:M; [|unfold sublist in A; rewrite M in A; congruence].
      destruct (sublist_spec _ _ _ _ _ _ _ _ _ _ _ A M) as (_ & _ & _ & _ & box & a & _ & Q1 & Q).
      rewrite Q in E2. apply app_inv_head in E2. injection E2 as <-. cbn [new_builder l_parent l_args]. split.
      + destruct (box_call_linked _ _ _ _ _ W (B _ _ M) Q1) as (l & show & _ & _ & I & _). exact I.
      + apply new_args_proper, update_proper; eauto.
    - unfold top_list, sbox in A.
      match type of A with (match box_with s p ?nm [] with _ => _ end) = _ => destruct (box_with s p nm []) as [s1 r1] eqn:E1 end.
      apply box_with_spec in E1 as (L1 & W1 & R1 & K1). destruct r1 as [box|e]; [|try discriminate; congruence].
      injection A as <- _. cbn [ls_slide ls_lists] in *. rewrite L1 in E2. apply app_inv_head in E2. injection E2 as <-.
      destruct (K1 box eq_refl) as (a & _ & A1). cbn [new_builder l_parent l_args]. split.
      + clear -A1 W. apply box_call_outcome in A1; [|exact W].
        inversion A1 as [| | | |l C b cs LC h ls show z cs' Hl Hf Es Eh Hs Hz Ha Hs']; subst.
        destruct (add_child_spec _ _ _ _ _ _ Ha) as [pre [post [-> [-> _]]]]. cbn [sl_box].
        eexists. split; [eapply Permutation.Permutation_in; [symmetry; apply boxes_insert|]; now left|reflexivity].
      + now apply new_args_proper. }
  constructor; [eapply reachable_wf; eauto|intros n b N; eapply ALL; eauto|intros n b N; eapply ALL; eauto].
Qed.
Lemma ran_inv : forall s0 h s, ran s0 h s -> ls_lists s0 = [] -> wf (ls_slide s0) ->
  (forall o r, In (o, r) h -> proper_op o) -> linv s.
Proof.
  intros s0 h s H E W. induction H as [|h s1 o s2 r H IH A]; intro P.
  - constructor; [exact W| |]; intros n b N; rewrite E in N; now destruct n.
  - eapply act_inv; [apply IH; intros; eapply P, in_or_app; eauto| |exact A].
    apply (P o r), in_or_app. right. now left.
Qed.

(** A way down in the layout along boxes at the left edge with the paddings [qs]. *)
Inductive path (l : layout) (a : nat) : list Q -> nat -> Prop :=
| pa_nil : path l a [] a
| pa_snoc : forall qs b c q, path l a qs b -> linked l b c (Some (PosAlign (inject_Z 0 / 100))) q ->
    path l a (qs ++ [q]) c.
Lemma path_ext : forall l l' a qs b, ext l l' -> path l a qs b -> path l' a qs b.
Proof. intros l l' a qs b [_ X] H. induction H; econstructor; eauto. Qed.

Lemma zero_pos : opt_pos (AStr (pys "[0%]")) = Ok (Some (PosAlign (inject_Z 0 / 100))).
Proof. vm_compute. reflexivity. Qed.
Lemma new_layout_left : forall id a l x q, new_layout id a = Ok l -> opt_pos (a_x a) = Ok x -> a_left a = Some q ->
  l_x (head l) = x /\ l_left (head l) = q.
Proof.
  intros id a l x q H X L. unfold new_layout in H. rewrite X, L in H. cbn [rbind set_padding] in H.
  destruct (opt_pos (a_y a)); [|discriminate]. cbn [rbind] in H.
  destruct (parse_size (or_zero (a_width a))); [|discriminate]. cbn [rbind] in H.
  destruct (parse_size (or_zero (a_height a))); [|discriminate]. cbn [rbind] in H.
  injection H as <-. split; reflexivity.
Qed.
(** The boxes of items and sublists. *)
Lemma list_box_linked : forall s p q d a s' id, wf s -> isbox s p -> proper d ->
  call_args [Kx (AStr (pys "[0%]")); Kp_left (Some q)] d = Ok a -> box_call s p a = (s', Ok id) ->
  linked (sl_layout s') p id (Some (PosAlign (inject_Z 0 / 100))) q /\ isbox s' id /\
  exists show, parse_show (given (show_of d) ShowNone) (Some (current_fragment s)) = Ok show /\ seen s' id (is_visible show).
Proof.
  intros s p q d a s' id W B P C H. destruct (box_call_linked _ _ _ _ _ W B H) as (l & show & L & S & B' & K & V).
  destruct (call_args_left _ _ _ _ C) as [X Y]. rewrite (call_args_show _ _ _ _ P C) in S.
  destruct (new_layout_left _ _ _ (Some (PosAlign (inject_Z 0 / 100))) q L) as [X' Y'];
    [rewrite X; exact zero_pos|exact Y|].
  rewrite X', Y' in K. eauto 6.
Qed.

Lemma nested_last : forall h e n root t is d, nested (h ++ [e]) n root t is d ->
  nested h n root t is d \/
  (snd e = Ok n /\ match fst e with
     | OTop _ _ i _ _ _ _ t' _ => n = root /\ t = t' /\ is = [] /\ d = i
     | OSub m _ _ i _ _ _ => exists is' d', nested h m root t is' d' /\ is = is' ++ [given i d'] /\ d = given i d'
     | _ => False
     end).
Proof.
  intros h e n root t is d H. remember (h ++ [e]) as g eqn:E.
  destruct H as [pre p d i pad lab st lv t args n post|pre m d st i lab lv args n post root t is d' H];
    apply snoc_split in E as [(-> & -> & <-)|(post' & -> & ->)].
  - right. cbn [snd fst]. auto.
  - left. constructor.
  - right. cbn [snd fst]. eauto 7.
  - left. now constructor.
Qed.
Lemma total_app : forall is t i, total t (is ++ [i]) = (total t is + i)%Q.
Proof. intros. unfold total. now rewrite fold_left_app. Qed.
Lemma sums_app : forall is t i, sums t (is ++ [i]) = sums t is ++ [(total t is + i)%Q].
Proof. induction is as [|x is IH]; intros t i; [reflexivity|]. cbn [app sums]. now rewrite IH. Qed.

Lemma nested_path : forall s0 h s, ran s0 h s -> ls_lists s0 = [] -> wf (ls_slide s0) ->
  (forall o r, In (o, r) h -> proper_op o) -> forall n root t is d, nested h n root t is d ->
  exists b b0, nth_error (ls_lists s) n = Some b /\ nth_error (ls_lists s) root = Some b0 /\
    l_total b = total t is /\ l_indent b = d /\
    path (sl_layout (ls_slide s)) (l_parent b0) (sums t is) (l_parent b).
Proof.
  intros s0 h s H E W. induction H as [|h s1 o s2 r H IH A]; intros P n root t is d N.
  - exfalso. inversion N; eapply app_cons_not_nil; eauto.
  - assert (P' : forall o r, In (o, r) h -> proper_op o) by (intros; eapply P, in_or_app; eauto).
    assert (Po : proper_op o) by (apply (P o r), in_or_app; right; now left).
    assert (IV := ran_inv _ _ _ H E W P').
    assert (X := reachable_ext _ _ (li_wf _ IV) (act_reachable _ _ _ _ _ A)).
    assert (NEW : forall l b, nth_error (l ++ [b]) (List.length l) = Some (b : builder)).
    { intros l b. rewrite nth_error_app2, Nat.sub_diag by lia. reflexivity. }
    apply nested_last in N as [N|(Er & K)].
    + destruct (IH P' _ _ _ _ _ N) as (b & b0 & N1 & N0 & T & D & PT).
      destruct (act_lists _ _ _ _ _ _ _ A N1) as (b' & N1' & (v & ->) & _).
      destruct (act_lists _ _ _ _ _ _ _ A N0) as (b0' & N0' & (v0 & ->) & _).
      do 2 eexists. split; [exact N1'|]. split; [exact N0'|]. split; [exact T|]. split; [exact D|].
      eapply path_ext; eauto.
    + cbn [fst snd] in *. subst r.
      destruct o as [m lab p args|m dl st i lab lv args|p dl i pad lab st lv t' args|q]; try contradiction; cbn [ListModel.act] in A.
      * destruct K as (is' & d' & N & -> & ->). destruct (IH P' _ _ _ _ _ N) as (bm & b0 & M & N0 & T & D & PT).
        destruct (sublist_spec _ _ _ _ _ _ _ _ _ _ _ A M) as (_ & _ & -> & _ & box & a & Q1 & Q2 & Q).
        destruct (act_lists measure _ (OSub m dl st i lab lv args) _ _ _ _ A N0) as (b0' & N0' & (v0 & ->) & _).
        rewrite Q in *. do 2 eexists. split; [apply NEW|]. split; [exact N0'|]. cbn [new_builder l_total l_indent l_parent set_level].
        rewrite total_app, sums_app, <- T, D. split; [reflexivity|]. split; [reflexivity|].
        rewrite T. econstructor; [eapply path_ext; [exact X|exact PT]|].
        destruct (list_box_linked _ _ _ _ _ _ _ (li_wf _ IV) (li_box _ IV _ _ M)
                    (update_proper _ _ (li_args _ IV _ _ M) Po) Q1 Q2) as [L _].
        rewrite T, D in L. exact L.
      * destruct K as (<- & -> & -> & ->). apply top_spec in A as (_ & _ & -> & box & Q). rewrite Q.
        do 2 eexists. split; [apply NEW|]. split; [apply NEW|]. cbn. repeat split. constructor.
Qed.
(** Geometry along a path. *)
Definition qsum (l : list Q) : Q := fold_right Qplus 0%Q l.
Lemma qsum_snoc : forall l q, (qsum (l ++ [q]) == qsum l + q)%Q.
Proof. intros l q. unfold qsum. induction l as [|x l IH]; simpl; [ring|]. rewrite IH. ring. Qed.
Lemma linked_rect : forall l r st S a c x q, NoDup (ids l) -> set_rect l r st = Ok S ->
  linked l a c x q -> exists R R', st_rect S a = Some R /\ st_rect S c = Some R' /\
    (x = Some (PosAlign (inject_Z 0 / 100)) -> (rx R' == rx R + q)%Q).
Proof.
  intros l r st S a c x q N H (p & k & W & Hk & <- & <- & Ex & Eq).
  assert (HL : laid any S l r) by (eapply set_rect_laid_any; eauto).
  destruct (laid_within _ _ _ _ _ W HL) as [rp HLp].
  assert (AR : exists R, area p S = Some R).
  { destruct p as [h cs]. apply laid_inv in HLp as (os & dd & A & _). eexists. exact A. }
  destruct AR as [R AR].
  destruct (C12_child_geometry_partial l r st S p R k N H W AR Hk) as (o & st' & (R' & A' & ->) & _ & G).
  exists R, R'. split; [exact AR|]. split; [exact A'|]. intros ->.
  destruct (G X) as [_ P]. unfold pos_arg in P. cbn in P. rewrite Ex in P.
  assert (NS : ~ skewed X p (PosAlign (inject_Z 0 / 100))) by (intros [Q _]; discriminate Q).
  specialize (P NS). unfold placed_at, start, grow in P. cbn [rx] in P. rewrite Eq in P.
  assert (Z : (inject_Z 0 / 100 == 0)%Q) by reflexivity. rewrite Z in P. lra.
Qed.
Lemma path_rect : forall l r st S a qs b R0, NoDup (ids l) -> set_rect l r st = Ok S ->
  path l a qs b -> st_rect S a = Some R0 -> exists R, st_rect S b = Some R /\ (rx R == rx R0 + qsum qs)%Q.
Proof.
  intros l r st S a qs b R0 N H P E. induction P as [|qs b c q P IH L].
  - exists R0. split; [exact E|]. simpl. ring.
  - destruct IH as (R & ER & G). destruct (linked_rect _ _ _ _ _ _ _ _ N H L) as (R1 & R' & E1 & E' & K).
    exists R'. split; [exact E'|]. assert (R1 = R) as -> by congruence. rewrite (K eq_refl), G, qsum_snoc. ring.
Qed.
Lemma linked_edge : forall l a c x q, linked l a c x q -> In (a, c) (layout_edges l).
Proof.
  intros l a c x q (p & k & W & Hk & <- & <- & _). induction W as [l|p d h cs Hd W IH].
  - destruct l as [h cs]. cbn [layout_edges head kids] in *. apply in_or_app. left.
    apply in_map_iff. exists k. auto.
  - cbn [layout_edges]. apply in_or_app. right. apply in_flat_map. exists d. auto.
Qed.

Lemma ran_app : forall s0 h1 h2 s, ran s0 (h1 ++ h2) s -> exists s1, ran s0 h1 s1 /\ ran s1 h2 s.
Proof.
  intros s0 h1 h2. induction h2 as [|e h2 IH] using rev_ind; intros s H.
  - rewrite app_nil_r in H. exists s. split; [exact H|constructor].
  - rewrite app_assoc in H. inversion H as [Q|h' s1 o s2 r H1 A Q]; subst.
    + exfalso. apply (app_cons_not_nil (h1 ++ h2) [] e). congruence.
    + apply app_inj_tail in Q as [-> <-]. destruct (IH _ H1) as (s' & A1 & A2).
      exists s'. split; [exact A1|]. econstructor; eauto.
Qed.
Lemma ran_one : forall s0 o r s, ran s0 [(o, r)] s -> act s0 o = (s, r).
Proof.
  intros s0 o r s H. inversion H as [Q|h s1 o' s2 r' H1 A Q]; subst.
  destruct h as [|e h]; [|destruct h; discriminate]. injection Q as <- <-.
  inversion H1 as [|h ? ? ? ? ? ? Q']; subst; [exact A|]. exfalso. now destruct h.
Qed.
Lemma ran_app_intro : forall s0 h1 s1 h2 s, ran s0 h1 s1 -> ran s1 h2 s -> ran s0 (h1 ++ h2) s.
Proof.
  intros s0 h1 s1 h2 s A B. induction B as [|h2 s2 o s3 r B IH K]; [now rewrite app_nil_r|].
  rewrite app_assoc. econstructor; eauto.
Qed.
Lemma ran_keeps_lists : forall s0 h s, ran s0 h s -> forall n b, nth_error (ls_lists s0) n = Some b ->
  exists v, nth_error (ls_lists s) n = Some (set_level b v).
Proof.
  intros s0 h s H n b N. induction H as [|h s1 o s2 r H IH A]; [exists (l_level b); now destruct b|].
  destruct IH as (v & N1). destruct (act_lists _ _ _ _ _ _ _ A N1) as (b' & N' & (v' & ->) & _). eauto.
Qed.

(** The item [content], made after the calls [h1]: its box, the parent of [content], is a
    child of the box of the list, at its left edge. *)
Lemma item_linked : forall s0 h1 n lab p args content h2 s, ls_lists s0 = [] -> wf (ls_slide s0) ->
  (forall o r, In (o, r) (h1 ++ (OItem n lab p args, Ok content) :: h2) -> proper_op o) ->
  ran s0 (h1 ++ (OItem n lab p args, Ok content) :: h2) s ->
  exists s1 s2 b ib x2 x3 show, ran s0 h1 s1 /\ nth_error (ls_lists s1) n = Some b /\
    linked (sl_layout (ls_slide s)) (l_parent b) ib (Some (PosAlign (inject_Z 0 / 100))) (l_total b + 0) /\
    linked (sl_layout (ls_slide s)) ib content x2 x3 /\
    parse_show (given (show_of (update (l_args b) (update args [Khorizontal true]))) ShowNone)
      (Some (current_fragment (ls_slide s1))) = Ok show /\
    seen (ls_slide s) ib (is_visible show) /\
    ran s1 [(OItem n lab p args, Ok content)] s2 /\ ran s2 h2 s.
Proof.
  intros s0 h1 n lab p args content h2 s E W P H.
  apply ran_app in H as (s1 & H1 & H). change (?x :: ?l) with ([x] ++ l) in H.
  apply ran_app in H as (s2 & H' & H2).
  assert (A := ran_one _ _ _ _ H').
  assert (IV : linv s1).
  { eapply ran_inv; [exact H1|exact E|exact W|]. intros; eapply P, in_or_app; eauto. }
  assert (PI : proper args) by (apply (P (OItem n lab p args) (Ok content)), in_elt).
  cbn [ListModel.act] in A.
  destruct (nth_error (ls_lists s1) n) as [b|] eqn:N; [|unfold item in A; rewrite N in A; congruence].
  destruct (item_spec _ _ _ _ _ _ _ _ _ A N) as (_ & _ & _ & K).
  destruct (K content eq_refl) as (_ & a & x1 & ib & a2 & x2 & C1 & B1 & R1 & B2).
  destruct (list_box_linked _ _ _ _ _ _ _ (li_wf _ IV) (li_box _ IV _ _ N)
     (update_proper _ _ (li_args _ IV _ _ N) (horizontal_proper _ PI)) C1 B1) as (L & I1 & show & S1 & V1).
  assert (Wx1 : wf x1) by exact (perform_wf _ (CBox _ a) _ _ (li_wf _ IV) B1).
  assert (Wx2 : wf x2) by exact (reachable_wf _ _ Wx1 R1).
  assert (I2 : isbox x2 ib) by exact (reachable_isbox _ _ _ Wx1 R1 I1).
  destruct (box_call_linked _ _ _ _ _ Wx2 I2 B2) as (l2 & sh2 & _ & _ & _ & L2 & _).
  assert (R2 : reachable x2 (ls_slide s2)) by exact (reachable_one _ (CBox ib a2) _ _ B2).
  assert (W2 : wf (ls_slide s2)) by exact (reachable_wf _ _ Wx2 R2).
  assert (R3 := ran_reachable _ _ _ _ H2).
  assert (R4 : reachable x1 (ls_slide s)) by exact (reachable_trans _ _ _ R1 (reachable_trans _ _ _ R2 R3)).
  exists s1, s2, b, ib, (l_x (head l2)), (l_left (head l2)), show.
  split; [exact H1|]. split; [exact N|].
  split; [exact (proj2 (reachable_ext _ _ Wx1 R4) _ _ _ _ L)|].
  split; [exact (proj2 (reachable_ext _ _ W2 R3) _ _ _ _ L2)|].
  split; [exact S1|]. split; [exact (reachable_seen _ _ _ _ Wx1 R4 V1)|]. auto.
Qed.

Lemma nested_mono : forall h h' n root t is d, nested h n root t is d -> nested (h ++ h') n root t is d.
Proof.
  intros h h' n root t is d H.
  destruct H as [pre p d i pad lab st lv t args n post|pre m d st i lab lv args n post root t is d' H];
    rewrite <- app_assoc; cbn [app]; now constructor.
Qed.

(** Where things are: the box of a list of indentations [is] below the list [root], and the
    box of an item of it. *)
Theorem C63_list_box : forall s0 h s n root t is d r st S, ls_lists s0 = [] -> wf (ls_slide s0) ->
  (forall o r, In (o, r) h -> proper_op o) -> ran s0 h s -> nested h n root t is d -> n <> root ->
  set_rect (sl_layout (ls_slide s)) r st = Ok S ->
  exists b b0 R R0, nth_error (ls_lists s) n = Some b /\ nth_error (ls_lists s) root = Some b0 /\
    st_rect S (l_parent b) = Some R /\ st_rect S (l_parent b0) = Some R0 /\
    (rx R == rx R0 + qsum (sums t is))%Q.
Proof.
  intros s0 h s n root t is d r st S E W P H N NE HS.
  destruct (nested_path _ _ _ H E W P _ _ _ _ _ N) as (b & b0 & N1 & N0 & T & D & PT).
  assert (IV := ran_inv _ _ _ H E W P). assert (ND := wf_lnodup _ (li_wf _ IV)).
  assert (R0 : exists R0, st_rect S (l_parent b0) = Some R0).
  { revert PT. generalize (l_parent b0) as a. intros a PT.
    assert (G : forall a qs b, path (sl_layout (ls_slide s)) a qs b -> qs = [] /\ a = b \/ exists R0, st_rect S a = Some R0).
    { intros a' qs b' Q. induction Q as [|qs b' c q Q IH L]; [auto|]. right. destruct IH as [[-> ->]|IH]; [|exact IH].
      destruct (linked_rect _ _ _ _ _ _ _ _ ND HS L) as (R & _ & ER & _). eauto. }
    apply G in PT as [[Q _]|Q]; [|exact Q]. exfalso. destruct is; [|discriminate].
    clear - N NE. inversion N; subst; [now apply NE|]. now destruct is. }
  destruct R0 as [R0 E0]. destruct (path_rect _ _ _ _ _ _ _ _ ND HS PT E0) as (R & ER & G).
  exists b, b0, R, R0. auto 6.
Qed.
Theorem C63_item_box : forall s0 h1 n lab p args content h2 s root t is d r st S, ls_lists s0 = [] -> wf (ls_slide s0) ->
  (forall o r, In (o, r) (h1 ++ (OItem n lab p args, Ok content) :: h2) -> proper_op o) ->
  ran s0 (h1 ++ (OItem n lab p args, Ok content) :: h2) s -> nested h1 n root t is d ->
  set_rect (sl_layout (ls_slide s)) r st = Ok S ->
  exists b0 ib R R0, nth_error (ls_lists s) root = Some b0 /\
    In (ib, content) (layout_edges (sl_layout (ls_slide s))) /\
    st_rect S ib = Some R /\ st_rect S (l_parent b0) = Some R0 /\
    (rx R == rx R0 + qsum (sums t is) + total t is)%Q.
Proof.
  intros s0 h1 n lab p args content h2 s root t is d r st S E W P H N HS.
  assert (IV := ran_inv _ _ _ H E W P). assert (ND := wf_lnodup _ (li_wf _ IV)).
  destruct (nested_path _ _ _ H E W P _ _ _ _ _ (nested_mono _ ((OItem n lab p args, Ok content) :: h2) _ _ _ _ _ N))
    as (b & b0 & N1 & N0 & T & D & PT).
  destruct (item_linked _ _ _ _ _ _ _ _ _ E W P H) as (s1 & s2 & b1 & ib & x2 & x3 & show & H1 & Nb & L1 & L2 & _ & _ & H' & H2).
  assert (EB : l_parent b1 = l_parent b /\ l_total b1 = l_total b).
  { destruct (ran_keeps_lists _ _ _ (ran_app_intro _ _ _ _ _ H' H2) _ _ Nb) as (v & Q). rewrite Q in N1. injection N1 as <-. auto. }
  destruct EB as [EB1 EB2]. rewrite EB1, EB2, T in L1.
  assert (PI : path (sl_layout (ls_slide s)) (l_parent b0) (sums t is ++ [(total t is + 0)%Q]) ib) by (econstructor; eauto).
  assert (R0 : exists R0, st_rect S (l_parent b0) = Some R0).
  { assert (G : forall a qs b, path (sl_layout (ls_slide s)) a qs b -> qs = [] /\ a = b \/ exists R0, st_rect S a = Some R0).
    { intros a' qs b' Q. induction Q as [|qs b' c q Q IH L]; [auto|]. right. destruct IH as [[-> ->]|IH]; [|exact IH].
      destruct (linked_rect _ _ _ _ _ _ _ _ ND HS L) as (R & _ & ER & _). eauto. }
    apply G in PI as [[Q _]|Q]; [|exact Q]. exfalso. now destruct (sums t is). }
  destruct R0 as [R0 E0]. destruct (path_rect _ _ _ _ _ _ _ _ ND HS PI E0) as (R & ER & G).
  exists b0, ib, R, R0. split; [exact N0|]. split; [eapply linked_edge; eauto|]. split; [exact ER|]. split; [exact E0|].
  rewrite G, qsum_snoc. ring.
Qed.

(** Full statement: a sublist is indented by its indentation relative to the list around it.
    True of the box of the sublist and the boxes of the items around it, but not of the
    items of the sublist (C63_indent_refuted). *)
Theorem C63_box_indent_partial : forall s0 h1 m lab p args content h2 d st i lab' lv args' n h3 s root t is e r sto S,
  let h := h1 ++ (OItem m lab p args, Ok content) :: h2 in
  let h' := h ++ (OSub m d st i lab' lv args', Ok n) :: h3 in
  ls_lists s0 = [] -> wf (ls_slide s0) -> (forall o r, In (o, r) h' -> proper_op o) ->
  ran s0 h' s -> nested h1 m root t is e -> set_rect (sl_layout (ls_slide s)) r sto = Ok S ->
  exists b ib R R', nth_error (ls_lists s) n = Some b /\ In (ib, content) (layout_edges (sl_layout (ls_slide s))) /\
    st_rect S ib = Some R /\ st_rect S (l_parent b) = Some R' /\ (rx R' == rx R + given i e)%Q.
Proof.
  intros s0 h1 m lab p args content h2 d st i lab' lv args' n h3 s root t is e r sto S h h' E W P H N HS.
  assert (Nn : nested h' n root t (is ++ [given i e]) (given i e)).
  { unfold h'. econstructor. unfold h. now apply nested_mono. }
  assert (NE : n <> root).
  { destruct (ran_app _ _ _ _ H) as (s1 & A & B). change (?x :: ?l) with ([x] ++ l) in B.
    destruct (ran_app _ _ _ _ B) as (s2 & B1 & _). apply ran_one in B1. cbn [ListModel.act] in B1.
    assert (Pm : forall o r, In (o, r) h -> proper_op o) by (intros; eapply P, in_or_app; eauto).
    destruct (nested_path _ _ _ A E W Pm _ _ _ _ _ (nested_mono _ ((OItem m lab p args, Ok content) :: h2) _ _ _ _ _ N)) as (b & b0 & N1 & N0 & _).
    destruct (sublist_spec _ _ _ _ _ _ _ _ _ _ _ B1 N1) as (_ & _ & -> & _).
    intros <-. rewrite (proj2 (nth_error_None _ _)) in N0; [discriminate|lia]. }
  destruct (C63_list_box _ _ _ _ _ _ _ _ _ _ _ E W P H Nn NE HS) as (b & b0 & R' & R0 & N1 & N0 & E1 & E0 & G).
  unfold h', h in P, H. rewrite <- app_assoc in P, H. cbn [app] in P, H.
  destruct (C63_item_box _ _ _ _ _ _ _ _ _ _ _ _ _ _ _ _ E W P H N HS) as (b0' & ib & R & R0' & N0' & EG & E1' & E0' & G').
  exists b, ib, R, R'. split; [exact N1|]. split; [exact EG|]. split; [exact E1'|]. split; [exact E1|].
  assert (b0' = b0) as -> by congruence. assert (R0' = R0) as -> by congruence.
  rewrite G, G', sums_app, qsum_snoc. ring.
Qed.

(** C84. *)
Lemma shows_last : forall h e n l, shows (h ++ [e]) n l ->
  shows h n l \/
  (snd e = Ok n /\ match fst e with
     | OTop _ _ _ _ _ _ _ _ args => l = [show_of args]
     | OSub m _ _ _ _ _ args => exists l', shows h m l' /\ l = show_of args :: l'
     | _ => False
     end).
Proof.
  intros h e n l H. remember (h ++ [e]) as g eqn:E.
  destruct H as [pre p d i pad lab st lv t args n post|pre m d st i lab lv args n post l H];
    apply snoc_split in E as [(-> & -> & <-)|(post' & -> & ->)].
  - right. cbn [snd fst]. auto.
  - left. constructor.
  - right. cbn [snd fst]. eauto.
  - left. now constructor.
Qed.
Lemma new_args_show : forall args,
  show_of (if has_key (key (Kshow ShowNone)) args then args else args ++ [Kshow last_plus]) = Some (given (show_of args) last_plus).
Proof.
  intro args. cbn [key]. rewrite has_show. destruct (show_of args) eqn:E; [exact E|].
  induction args as [|k l IH]; [reflexivity|]. destruct k; cbn in *; auto. discriminate.
Qed.
Lemma shows_sound : forall s0 h s, ran s0 h s -> ls_lists s0 = [] -> forall n l, shows h n l ->
  exists b, nth_error (ls_lists s) n = Some b /\ show_of (l_args b) = Some (nearest l).
Proof.
  intros s0 h s H E. induction H as [|h s1 o s2 r H IH A]; intros n l N.
  - exfalso. inversion N; eapply app_cons_not_nil; eauto.
  - assert (NEW : forall l b, nth_error (l ++ [b]) (List.length l) = Some (b : builder)).
    { intros l0 b. rewrite nth_error_app2, Nat.sub_diag by lia. reflexivity. }
    apply shows_last in N as [N|(Er & K)].
    + destruct (IH _ _ N) as (b & N1 & T).
      destruct (act_lists _ _ _ _ _ _ _ A N1) as (b' & N1' & (v & ->) & _). eauto.
    + cbn [fst snd] in *. subst r.
      destruct o as [m lab p args|m dl st i lab lv args|p dl i pad lab st lv t' args|q]; try contradiction; cbn [ListModel.act] in A.
      * destruct K as (l' & N & ->). destruct (IH _ _ N) as (bm & M & T).
        destruct (sublist_spec _ _ _ _ _ _ _ _ _ _ _ A M) as (_ & _ & -> & _ & box & a & Q1 & Q2 & Q).
        rewrite Q. eexists. split; [apply NEW|]. cbn [new_builder l_args]. rewrite new_args_show, update_show, T.
        cbn [nearest]. now destruct (show_of args).
      * subst l. apply top_spec in A as (_ & _ & -> & box & Q). rewrite Q. eexists. split; [apply NEW|].
        cbn [new_builder l_args]. rewrite new_args_show. cbn [nearest]. now destruct (show_of args).
Qed.

(** When an item is shown: as its own argument says; without one as the nearest list says
    that has one; by default from the last fragment on.  "last" is that of the moment when
    the item is made, and no later call changes it. *)
Theorem C84_item_show : forall s0 h1 n lab p args content h2 s l, ls_lists s0 = [] -> wf (ls_slide s0) ->
  (forall o r, In (o, r) (h1 ++ (OItem n lab p args, Ok content) :: h2) -> proper_op o) ->
  ran s0 (h1 ++ (OItem n lab p args, Ok content) :: h2) s -> shows h1 n l ->
  exists s1 b show, ran s0 h1 s1 /\ box_in b (sl_box (ls_slide s)) /\
    In (b_id b, content) (layout_edges (sl_layout (ls_slide s))) /\
    parse_show (nearest (show_of args :: l)) (Some (current_fragment (ls_slide s1))) = Ok show /\
    forall k, is_visible (b_show b) k = is_visible show k.
Proof.
  intros s0 h1 n lab p args content h2 s l E W P H N.
  destruct (item_linked _ _ _ _ _ _ _ _ _ E W P H) as (s1 & s2 & b & ib & x2 & x3 & show & H1 & Nb & L1 & L2 & PS & (d & Hd & <- & V) & _).
  exists s1, d, show. split; [exact H1|]. split; [now apply box_in_boxes|]. split; [eapply linked_edge; eauto|].
  split; [|exact V]. destruct (shows_sound _ _ _ H1 E _ _ N) as (b' & Nb' & T). assert (b' = b) as -> by congruence.
  rewrite !update_show, T in PS. cbn [show_of] in PS. cbn [nearest].
  destruct (show_of args) as [v|]; exact PS.
Qed.
(** The box of a sublist likewise: its items are seen only when this box is. *)
Theorem C84_sublist_show : forall s0 h1 m d st i lab lv args n h2 s l, ls_lists s0 = [] -> wf (ls_slide s0) ->
  (forall o r, In (o, r) (h1 ++ (OSub m d st i lab lv args, Ok n) :: h2) -> proper_op o) ->
  ran s0 (h1 ++ (OSub m d st i lab lv args, Ok n) :: h2) s -> shows h1 m l ->
  exists s1 lb b show, ran s0 h1 s1 /\ nth_error (ls_lists s) n = Some lb /\
    box_in b (sl_box (ls_slide s)) /\ b_id b = l_parent lb /\
    parse_show (nearest (show_of args :: l)) (Some (current_fragment (ls_slide s1))) = Ok show /\
    forall k, is_visible (b_show b) k = is_visible show k.
Proof.
  intros s0 h1 m d st i lab lv args n h2 s l E W P H N.
  apply ran_app in H as (s1 & H1 & H). change (?x :: ?l) with ([x] ++ l) in H.
  apply ran_app in H as (s2 & H' & H2). apply ran_one in H'. assert (RS := act_reachable _ _ _ _ _ H').
  cbn [ListModel.act] in H'.
  assert (IV : linv s1).
  { eapply ran_inv; [exact H1|exact E|exact W|]. intros; eapply P, in_or_app; eauto. }
  assert (PI : proper args) by (apply (P (OSub m d st i lab lv args) (Ok n)), in_elt).
  destruct (shows_sound _ _ _ H1 E _ _ N) as (bm & M & T).
  destruct (sublist_spec _ _ _ _ _ _ _ _ _ _ _ H' M) as (_ & _ & -> & _ & box & a & Q1 & Q2 & Q).
  destruct (list_box_linked _ _ _ _ _ _ _ (li_wf _ IV) (li_box _ IV _ _ M)
              (update_proper _ _ (li_args _ IV _ _ M) PI) Q1 Q2) as (_ & _ & show & PS & V).
  assert (N2 : exists b2, nth_error (ls_lists s2) (List.length (ls_lists s1)) = Some b2 /\ l_parent b2 = box).
  { rewrite Q, nth_error_app2, Nat.sub_diag by lia. eexists. split; reflexivity. }
  destruct N2 as (b2 & N2 & EP). destruct (ran_keeps_lists _ _ _ H2 _ _ N2) as (v & N3).
  assert (W2 : wf (ls_slide s2)) by (eapply reachable_wf; [exact (li_wf _ IV)|exact RS]).
  destruct (reachable_seen _ _ _ _ W2 (ran_reachable _ _ _ _ H2) V) as (e & He & Ee & Ve).
  exists s1, (set_level b2 v), e, show. split; [exact H1|]. split; [exact N3|]. split; [now apply box_in_boxes|].
  split; [cbn [set_level l_parent]; congruence|]. split; [|exact Ve].
  rewrite update_show, T in PS. cbn [nearest]. destruct (show_of args) as [w|]; exact PS.
Qed.
End Measure.
Print Assumptions C62_numbering_partial.
Print Assumptions C62_labels.
Print Assumptions C62_isolated.
Print Assumptions C63_list_box.
Print Assumptions C63_item_box.
Print Assumptions C63_box_indent_partial.
Print Assumptions C84_item_show.
Print Assumptions C84_sublist_show.
