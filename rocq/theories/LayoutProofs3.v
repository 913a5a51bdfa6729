(** Proofs about whole renders: translation, lazy values, repeated renders, insertion. *)
From Coq Require Import List ZArith QArith Qfield Bool Lia Lqa Setoid.
From Verif Require Import Py PyFacts LayoutModel LayoutSpec LayoutProofs LayoutProofs2.
Import ListNotations.
Open Scope Q_scope.

(** ** C18: translation *)
Definition shifted (v : axis -> Q) (r r' : rect) : Prop :=
  forall a, start a r' == start a r + v a /\ extent a r' == extent a r.

Lemma shifted_translate : forall v r r', shifted v r r' <-> req r' (translate v r).
Proof.
  intros v r r'. unfold shifted, req, translate. simpl. split.
  - intro H. destruct (H X), (H Y). simpl in *. auto.
  - intros [H1 [H2 [H3 H4]]] []; simpl; auto.
Qed.

Lemma fits_comp : forall a full full' c, full == full' -> fits a full c == fits a full' c.
Proof.
  intros a full full' c H. unfold fits. destruct (ratio_true (rq a c)).
  - apply qmax_comp; [rewrite H|]; reflexivity.
  - reflexivity.
Qed.

Lemma fixed_sum_comp : forall a full full' cs, full == full' ->
  fixed_sum a full cs == fixed_sum a full' cs.
Proof.
  intros a full full' cs H. induction cs as [|c cs IH]; simpl; [reflexivity|].
  destruct (is_fill (size_arg a c)).
  - rewrite IH. reflexivity.
  - rewrite IH, (fits_comp a full full' c H). reflexivity.
Qed.

Lemma content_shifted : forall v h r r', shifted v r r' ->
  shifted v (content h r) (content h r').
Proof.
  intros v h r r' H a. destruct (H a) as [H1 H2].
  assert (A1 := content_start a h [] r). assert (A2 := content_start a h [] r').
  assert (B1 := content_extent a h [] r). assert (B2 := content_extent a h [] r').
  split; lra.
Qed.

Lemma main_axis_shift : forall v h cs R R', shifted v R R' ->
  fst (main_axis (Node h cs) R') ==
    fst (main_axis (Node h cs) R) + v (main (l_horizontal h)) /\
  snd (main_axis (Node h cs) R') == snd (main_axis (Node h cs) R).
Proof.
  intros v h cs R R' HS. unfold main_axis. cbn [head].
  change (if l_horizontal h then rw R else rh R) with
    (if l_horizontal h then rw R else rh R).
  set (m := main (l_horizontal h)).
  assert (E1 : (if l_horizontal h then rw R else rh R) = extent m R)
    by (unfold m; destruct (l_horizontal h); reflexivity).
  assert (E2 : (if l_horizontal h then rw R' else rh R') = extent m R')
    by (unfold m; destruct (l_horizontal h); reflexivity).
  assert (E3 : (if l_horizontal h then rx R else ry R) = start m R)
    by (unfold m; destruct (l_horizontal h); reflexivity).
  assert (E4 : (if l_horizontal h then rx R' else ry R') = start m R')
    by (unfold m; destruct (l_horizontal h); reflexivity).
  rewrite E1, E2, E3, E4.
  destruct (account_fold (l_horizontal h) (extent m R) (managed_children (Node h cs)) 0
              (extent m R)) as [f1 [A1 A2]].
  destruct (account_fold (l_horizontal h) (extent m R') (managed_children (Node h cs)) 0
              (extent m R')) as [f2 [B1 B2]].
  rewrite A1, B1. fold m in A2, B2.
  destruct (HS m) as [S1 S2].
  assert (Ef : f2 == f1).
  { assert (Ex := fixed_sum_comp m _ _ (managed_children (Node h cs)) S2). lra. }
  destruct (negb _); cbn [fst snd]; split.
  - rewrite S1. ring.
  - rewrite Ef. reflexivity.
  - rewrite S1, Ef. ring.
  - reflexivity.
Qed.

Lemma static_size : forall a c, static_head (head c) -> is_lazy (size_arg a c) = false.
Proof.
  intros a c [H1 [H2 _]]. unfold is_lazy, size_arg. destruct a; [rewrite H1|rewrite H2]; auto.
Qed.
Lemma static_pos : forall a c f, static_head (head c) -> pos_arg a c <> Some (PosLazy f).
Proof. intros a c f [_ [_ [H3 H4]]]. destruct a; simpl; auto. Qed.

Lemma child_shift : forall v hor R R' fu fu' c dd dd' s s' o o' d d',
  static_head (head c) -> shifted v R R' -> fu' == fu -> dd' == dd + v (main hor) ->
  child_rect hor R fu c dd s = Ok (o, d) ->
  child_rect hor R' fu' c dd' s' = Ok (o', d') ->
  shifted v o o' /\ d' == d + v (main hor).
Proof.
  intros v hor R R' fu fu' c dd dd' s s' o o' d d' Hst HS Hfu Hdd H1 H2.
  apply child_rect_inv in H1. apply child_rect_inv in H2.
  destruct H1 as [S1 [P1 D1]]. destruct H2 as [S2 [P2 D2]].
  assert (Hext : forall a, extent a o' == extent a o).
  { intro a. specialize (S1 a). specialize (S2 a).
    apply size_compute_static in S1; [|now apply static_size].
    apply size_compute_static in S2; [|now apply static_size].
    rewrite S1, S2. destruct (HS a) as [_ HE].
    destruct (is_fill (size_arg a c)).
    - unfold fill_for. destruct (along a hor); [rewrite Hfu; reflexivity | exact HE].
    - now apply fits_comp. }
  assert (Hsh : shifted v o o').
  { intro a. split; [|apply Hext]. specialize (P1 a). specialize (P2 a).
    destruct (HS a) as [HA HE]. specialize (Hext a).
    assert (Hfull : (if hor then rw R' else extent a R') ==
                    (if hor then rw R else extent a R)).
    { destruct hor; [destruct (HS X) as [_ HX]; exact HX | exact HE]. }
    destruct (pos_arg a c) as [p|] eqn:Ep.
    - destruct p as [q|q|q|f|]; cbn [pos_compute] in P1, P2.
      + injection P1 as P1. injection P2 as P2. rewrite <- P1, <- P2, HA. ring.
      + injection P1 as P1. injection P2 as P2. rewrite <- P1, <- P2, HA, Hfull. ring.
      + injection P1 as P1. injection P2 as P2. rewrite <- P1, <- P2, HA, Hfull, Hext. ring.
      + exfalso. now apply (static_pos a c f Hst).
      + discriminate.
    - destruct (along a hor) eqn:Ea.
      + rewrite P1, P2, Hdd.
        assert (Em : a = main hor) by (destruct a, hor; simpl in *; congruence).
        rewrite Em. reflexivity.
      + rewrite P1, P2, HA, HE, Hext. ring. }
  split; auto.
  rewrite D1, D2. fold (main hor).
  destruct (pos_arg (main hor) c); [exact Hdd|].
  rewrite Hdd, (Hext (main hor)). ring.
Qed.

Lemma chain_shift : forall v E E' hor R R' fu fu', shifted v R R' -> fu' == fu ->
  forall cs dd os d, chain E hor R fu cs dd os d ->
  Forall (fun c => static_head (head c)) cs ->
  forall dd' os' d', dd' == dd + v (main hor) -> chain E' hor R' fu' cs dd' os' d' ->
  Forall2 (shifted v) os os'.
Proof.
  intros v E E' hor R R' fu fu' HS Hfu cs dd os d H.
  induction H as [|c cs dd st o dd1 os d2 HE H1 H3 IH]; intros Hst dd' os' d' Hdd H'.
  - inversion H'; subst. constructor.
  - inversion Hst; subst. inversion H' as [|? ? ? st' o' dd1' os0' ? HE' H1' H3']; subst.
    destruct (child_shift v hor R R' fu fu' c dd dd' st st' o o' dd1 dd1') as [A B]; auto.
    constructor; auto. eapply IH; eauto.
Qed.

Theorem laid_translate : forall v E E' S S' l r r',
  laid E S l r -> laid E' S' l r' -> static l -> shifted v r r' ->
  forall p, within p l -> exists R R', area p S = Some R /\ area p S' = Some R' /\
    shifted v R R'.
Proof.
  intros v E E' S S' l. induction l as [h cs IH] using layout_rect.
  intros r r' H H' Hst HS p Hp.
  apply laid_inv in H. apply laid_inv in H'.
  destruct H as [os [dd [HR [Hc HF]]]]. destruct H' as [os' [dd' [HR' [Hc' HF']]]].
  assert (HC := content_shifted v h r r' HS).
  destruct (main_axis_shift v h cs _ _ HC) as [M1 M2].
  assert (Hkids : Forall (fun c => static_head (head c)) cs).
  { apply Forall_forall. intros c Hi. apply Hst. eapply within_kid; [eauto|constructor]. }
  assert (Hos := chain_shift v _ _ _ _ _ _ _ HC M2 _ _ _ _ Hc Hkids _ _ _ M1 Hc').
  assert (Hsk : forall c, In c cs -> static c).
  { intros c Hi b Hb. apply Hst. eapply within_kid; eauto. }
  inversion Hp as [|? d ? ? Hi Hw]; subst.
  - exists (content h r), (content h r'). auto.
  - clear - IH Hsk Hos HF HF' Hi Hw. revert os os' Hos HF HF'.
    induction cs as [|c cs IHc]; [destruct Hi|]. intros os os' Hos HF HF'.
    inversion IH as [|? ? IH1 IH2]; subst.
    inversion HF as [|? o ? os0 F1 F2]; subst. inversion HF' as [|? o' ? os0' F1' F2']; subst.
    inversion Hos; subst. destruct Hi as [->|Hi].
    + eapply IH1; eauto. apply Hsk. now left.
    + eapply IHc; eauto. intros b Hb. apply Hsk. now right.
Qed.

(** ** Replaying a child in another store *)
Lemma size_compute_replay : forall v full fu st T q,
  (forall f w, sv_lazy v = Some f -> f st = Ok w -> f T = Ok w) ->
  size_compute v full fu st = Ok q -> size_compute v full fu T = Ok q.
Proof.
  intros v full fu st T q H Hc. unfold size_compute in *.
  destruct (sv_lazy v) as [f|]; auto.
Qed.

Lemma pos_compute_replay : forall p o full own st T q,
  (forall f w, p = PosLazy f -> f st = Ok w -> f T = Ok w) ->
  pos_compute p o full own st = Ok q -> pos_compute p o full own T = Ok q.
Proof. intros [q0|q0|q0|f|] o full own st T q H Hc; simpl in *; auto. Qed.

Lemma child_rect_replay : forall hor r fu c dd st T x,
  (forall f w, lazy_in f (head c) -> f st = Ok w -> f T = Ok w) ->
  child_rect hor r fu c dd st = Ok x -> child_rect hor r fu c dd T = Ok x.
Proof.
  intros hor r fu c dd st T x H Hc.
  assert (HX : forall f w, sv_lazy (fst (size_request c)) = Some f -> f st = Ok w -> f T = Ok w).
  { intros f w Hf. apply H. destruct (rq_fields X c) as [_ [_ E]]. unfold rq in E.
    rewrite E in Hf. right. right. left. exact Hf. }
  assert (HY : forall f w, sv_lazy (snd (size_request c)) = Some f -> f st = Ok w -> f T = Ok w).
  { intros f w Hf. apply H. destruct (rq_fields Y c) as [_ [_ E]]. unfold rq in E.
    rewrite E in Hf. right. right. right. exact Hf. }
  assert (PX : forall p f w, l_x (head c) = Some p -> p = PosLazy f -> f st = Ok w -> f T = Ok w).
  { intros p f w Hp -> Hw. apply (H f w); auto. left. exact Hp. }
  assert (PY : forall p f w, l_y (head c) = Some p -> p = PosLazy f -> f st = Ok w -> f T = Ok w).
  { intros p f w Hp -> Hw. apply (H f w); auto. right. left. exact Hp. }
  clear H. unfold child_rect in *.
  destruct (size_request c) as [rqw rqh]. simpl in HX, HY.
  destruct hor; simpl in *.
  - destruct (size_compute rqw (rw r) (Some fu) st) as [w|] eqn:Ew; [|discriminate].
    rewrite (size_compute_replay _ _ _ _ _ _ HX Ew). simpl in *.
    destruct (size_compute rqh (rh r) None st) as [h|] eqn:Eh; [|discriminate].
    rewrite (size_compute_replay _ _ _ _ _ _ HY Eh). simpl in *.
    destruct (l_y (head c)) as [p|].
    + destruct (pos_compute p (ry r) (rw r) h st) as [y|] eqn:Ey; [|discriminate].
      rewrite (pos_compute_replay _ _ _ _ _ T _ (fun f w => PY p f w eq_refl) Ey). simpl in *.
      destruct (l_x (head c)) as [p'|]; auto.
      destruct (pos_compute p' (rx r) (rw r) w st) as [x'|] eqn:Ex; [|discriminate].
      rewrite (pos_compute_replay _ _ _ _ _ T _ (fun f w => PX p' f w eq_refl) Ex). auto.
    + simpl in *. destruct (l_x (head c)) as [p'|]; auto.
      destruct (pos_compute p' (rx r) (rw r) w st) as [x'|] eqn:Ex; [|discriminate].
      rewrite (pos_compute_replay _ _ _ _ _ T _ (fun f w => PX p' f w eq_refl) Ex). auto.
  - destruct (size_compute rqw (rw r) None st) as [w|] eqn:Ew; [|discriminate].
    rewrite (size_compute_replay _ _ _ _ _ _ HX Ew). simpl in *.
    destruct (size_compute rqh (rh r) (Some fu) st) as [h|] eqn:Eh; [|discriminate].
    rewrite (size_compute_replay _ _ _ _ _ _ HY Eh). simpl in *.
    destruct (l_x (head c)) as [p|].
    + destruct (pos_compute p (rx r) (rw r) w st) as [x'|] eqn:Ex; [|discriminate].
      rewrite (pos_compute_replay _ _ _ _ _ T _ (fun f w => PX p f w eq_refl) Ex). simpl in *.
      destruct (l_y (head c)) as [p'|]; auto.
      destruct (pos_compute p' (ry r) (rh r) h st) as [y|] eqn:Ey; [|discriminate].
      rewrite (pos_compute_replay _ _ _ _ _ T _ (fun f w => PY p' f w eq_refl) Ey). auto.
    + simpl in *. destruct (l_y (head c)) as [p'|]; auto.
      destruct (pos_compute p' (ry r) (rh r) h st) as [y|] eqn:Ey; [|discriminate].
      rewrite (pos_compute_replay _ _ _ _ _ T _ (fun f w => PY p' f w eq_refl) Ey). auto.
Qed.

(** ** C19: lazy values see final coordinates *)
Definition stable (owner : nat -> nat) (i : nat) (f : lazy) : Prop :=
  forall st S v, earlier owner S st -> st_rect st i <> None -> f st = Ok v -> f S = Ok v.

Lemma user_lazy_stable : forall owner i f, user_lazy owner i f -> stable owner i f.
Proof.
  intros owner i. fix IH 2. intros f H. destruct H as [j p Hp|j p Hp|g f Hf|r|t g Ho|t g Ho];
    intros st S v HE Hi Hv.
  - unfold layout_x in *. destruct (st_rect st j) as [r|] eqn:Ej; [|discriminate].
    destruct (HE j r Ej) as [-> _]. eapply pos_compute_replay; [|exact Hv].
    intros f w Ef. apply (IH f (Hp f Ef)); auto.
  - unfold layout_y in *. destruct (st_rect st j) as [r|] eqn:Ej; [|discriminate].
    destruct (HE j r Ej) as [-> _]. eapply pos_compute_replay; [|exact Hv].
    intros f w Ef. apply (IH f (Hp f Ef)); auto.
  - unfold lazy_map in *. destruct (f st) as [w|] eqn:Ew; [|discriminate].
    rewrite (IH f Hf st S w HE Hi Ew). exact Hv.
  - exact Hv.
  - destruct (st_rect st i) as [r|] eqn:Ei; [|discriminate].
    destruct (HE i r Ei) as [-> Ht]. rewrite <- (Ht t Ho). exact Hv.
  - destruct (st_rect st i) as [r|] eqn:Ei; [|congruence].
    destruct (HE i r Ei) as [_ Ht]. rewrite <- (Ht t Ho). exact Hv.
Qed.

Lemma fresh_earlier : forall owner S s, fresh s -> earlier owner S s.
Proof. intros owner S s H i r Hi. rewrite H in Hi. discriminate. Qed.

Lemma first_render_laid : forall owner l r s S,
  NoDup (ids l) -> owned owner l -> fresh s -> set_rect l r s = Ok S ->
  laid (earlier owner S) S l r.
Proof.
  intros owner l r s S Hn Ho Hf H.
  apply (set_rect_laid owner l r s S S Hn Ho H); auto. now apply fresh_earlier.
Qed.

Lemma sized_replay : forall a c R o st T,
  (forall f w, lazy_in f (head c) -> f st = Ok w -> f T = Ok w) ->
  sized_as a c R o st -> sized_as a c R o T.
Proof.
  intros a c R o st T H. unfold sized_as.
  destruct (sv_lazy (size_arg a c)) as [f|] eqn:E; auto.
  intros [q [H1 H2]]. exists q. split; auto. apply H; auto. unfold lazy_in.
  destruct a; simpl in E; auto.
Qed.
Lemma placed_replay : forall a p c R o st T,
  (forall f w, lazy_in f (head c) -> f st = Ok w -> f T = Ok w) -> pos_arg a c = Some p ->
  placed_at a p R o st -> placed_at a p R o T.
Proof.
  intros a p c R o st T H Hp. destruct p as [q|q|q|f|]; simpl; auto.
  intros [v [H1 H2]]. exists v. split; auto. apply H; auto. unfold lazy_in.
  destruct a; simpl in Hp; auto.
Qed.

Theorem lazy_final : forall owner l r s S p c R,
  NoDup (ids l) -> owned owner l -> user_tree owner l -> fresh s -> set_rect l r s = Ok S ->
  within p l -> In c (kids p) -> area p S = Some R ->
  exists o, outer c S o /\ forall a,
    (is_lazy (size_arg a c) = true -> sized_as a c R o S) /\
    (forall q, pos_arg a c = Some q -> ~ skewed a p q -> placed_at a q R o S).
Proof.
  intros owner l r s S p c R Hn Ho Hu Hf H Hp Hc HR.
  assert (HL := first_render_laid _ _ _ _ _ Hn Ho Hf H).
  destruct (laid_within _ _ _ _ _ Hp HL) as [rp HLp].
  destruct (child_geometry _ _ _ _ _ _ HLp HR Hc) as [o [st [H1 [[H2 H2'] H3]]]].
  exists o. split; auto. intro a. destruct (H3 a) as [A B].
  assert (Hst : forall f w, lazy_in f (head c) -> f st = Ok w -> f S = Ok w).
  { intros f w Hl Hw. eapply user_lazy_stable; [eapply Hu; eauto|exact H2| |exact Hw].
    rewrite H2'. discriminate. }
  split.
  - intro Hl. eapply sized_replay; eauto.
  - intros q Hq Hsk. rewrite Hq in B. eapply placed_replay; eauto.
Qed.

(** ** A forward reference fails *)
Lemma within_trans : forall a b c, within a b -> within b c -> within a c.
Proof. intros a b c Hab H. induction H; auto. eapply within_kid; eauto. Qed.

Lemma precedes_self : forall l, exists post, ids l = l_id (head l) :: post.
Proof. intros [h cs]. rewrite ids_node. eauto. Qed.

Lemma trace : forall l r s s', set_rect l r s = Ok s' ->
  (forall i, st_rect s' i <> None -> st_rect s i <> None \/ In i (ids l)).
Proof.
  intros l r s s' H i Hi. destruct (in_dec Nat.eq_dec i (ids l)) as [Hin|Hin]; auto.
  left. now rewrite <- (set_rect_frame _ _ _ _ H i Hin).
Qed.

Lemma child_evaluates : forall hor r fu c dd st x f, child_rect hor r fu c dd st = Ok x ->
  lazy_in f (head c) -> exists v, f st = Ok v.
Proof.
  intros hor r fu c dd st [o dd'] f H Hf. apply child_rect_inv in H.
  destruct H as [S [P _]]. destruct Hf as [Hf|[Hf|[Hf|Hf]]].
  - specialize (P X). simpl in P. rewrite Hf in P. simpl in P. eauto.
  - specialize (P Y). simpl in P. rewrite Hf in P. simpl in P. eauto.
  - specialize (S X). destruct (rq_fields X c) as [_ [_ E]]. unfold size_compute in S.
    rewrite E in S. simpl in S. rewrite Hf in S. eauto.
  - specialize (S Y). destruct (rq_fields Y c) as [_ [_ E]]. unfold size_compute in S.
    rewrite E in S. simpl in S. rewrite Hf in S. eauto.
Qed.

Lemma evaluated_in : forall l r s s', set_rect l r s = Ok s' ->
  forall p c f, within p l -> In c (kids p) -> lazy_in f (head c) ->
  exists st v, f st = Ok v /\
    forall i, st_rect st i <> None -> st_rect s i <> None \/ precedes i (l_id (head c)) l.
Proof.
  induction l as [h cs IH] using layout_rect. intros r s s' H p c f Hp Hc Hf.
  apply set_rect_inv in H. destruct H as [os [dd H]]. unfold precedes. rewrite ids_node.
  set (R := content h r) in *.
  assert (Hent : forall i, st_rect (entered h R s) i <> None ->
                 st_rect s i <> None \/ i = l_id h).
  { intros i Hi. rewrite entered_rect in Hi. destruct (Nat.eqb i (l_id h)) eqn:Ei; auto.
    apply Nat.eqb_eq in Ei. auto. }
  (* generalise over the children already placed *)
  assert (Hgen : forall fu cs2 dd0 s0 os dd s', places (l_horizontal h) R fu cs2 dd0 s0 os dd s' ->
    forall cs1, cs = cs1 ++ cs2 ->
    (forall i, st_rect s0 i <> None -> st_rect s i <> None \/ In i (l_id h :: ids_list cs1)) ->
    (p = Node h cs /\ In c cs2 \/ exists d, In d cs2 /\ within p d) ->
    exists st v, f st = Ok v /\ (forall i, st_rect st i <> None ->
      st_rect s i <> None \/
      exists pre post, l_id h :: ids_list cs = pre ++ l_id (head c) :: post /\ In i pre)).
  { clear H dd os s'. intros fu cs2 dd0 s0 os dd s' H.
    induction H as [|d cs2 dd1 s1 o dd' s2 os dd2 s3 H1 H2 H3 IH2]; intros cs1 Ecs Hs Hcase.
    - destruct Hcase as [[_ []]|[d [[] _]]].
    - assert (Eids : ids_list cs = ids_list cs1 ++ ids d ++ ids_list cs2).
      { rewrite Ecs. unfold ids_list. rewrite flat_map_app. reflexivity. }
      assert (Hrec : (p = Node h cs /\ In c cs2 \/ exists d, In d cs2 /\ within p d) ->
        exists st v, f st = Ok v /\ (forall i, st_rect st i <> None ->
          st_rect s i <> None \/
          exists pre post, l_id h :: ids_list cs = pre ++ l_id (head c) :: post /\ In i pre)).
      { apply (IH2 (cs1 ++ [d])).
        - rewrite Ecs, <- app_assoc. reflexivity.
        - intros i Hi. destruct (trace _ _ _ _ H2 i Hi) as [Hi'|Hi'].
          + destruct (Hs i Hi') as [|[->|Hx]]; auto; right; [now left|].
            right. unfold ids_list. rewrite flat_map_app. apply in_or_app. now left.
          + right. right. unfold ids_list. rewrite flat_map_app. apply in_or_app. right.
            simpl. rewrite app_nil_r. exact Hi'. }
      destruct Hcase as [[Ep [->|Hi]]|[d' [[->|Hi] Hw]]].
      + destruct (child_evaluates _ _ _ _ _ _ _ _ H1 Hf) as [v Hv].
        exists s1, v. split; auto. intros i Hi. destruct (Hs i Hi) as [|Hx]; auto. right.
        destruct (precedes_self c) as [post Epost].
        exists (l_id h :: ids_list cs1), (post ++ ids_list cs2). split; auto.
        rewrite Eids, Epost. reflexivity.
      + apply Hrec. left. auto.
      + assert (HId : forall r s s', set_rect d' r s = Ok s' ->
          forall p c f, within p d' -> In c (kids p) -> lazy_in f (head c) ->
          exists st v, f st = Ok v /\
          forall i, st_rect st i <> None ->
            st_rect s i <> None \/ precedes i (l_id (head c)) d').
        { rewrite Forall_forall in IH. apply IH. rewrite Ecs. apply in_or_app. right. now left. }
        destruct (HId o s1 s2 H2 p c f Hw Hc Hf) as [st [v [Hv Hst]]].
        exists st, v. split; auto. intros i Hi.
        destruct (Hst i Hi) as [Hi'|[pre [post [E Hpre]]]].
        * destruct (Hs i Hi') as [|Hx]; auto. right.
          assert (Hcd : In (l_id (head c)) (ids d')).
          { apply within_ids. destruct p as [hp cp]. eapply (within_trans c (Node hp cp)); eauto.
            eapply within_kid; [exact Hc|constructor]. }
          apply in_split in Hcd. destruct Hcd as [pre [post E]].
          exists (l_id h :: ids_list cs1 ++ pre), (post ++ ids_list cs2). split.
          -- rewrite Eids, E. simpl. rewrite <- !app_assoc. reflexivity.
          -- destruct Hx as [->|Hx]; [now left|right; apply in_or_app; now left].
        * right. exists (l_id h :: ids_list cs1 ++ pre), (post ++ ids_list cs2). split.
          -- rewrite Eids, E. simpl. rewrite <- !app_assoc. reflexivity.
          -- right. apply in_or_app. now right.
      + apply Hrec. right. eauto. }
  eapply (Hgen _ _ _ _ _ _ _ H []); auto.
  - intros i Hi. destruct (Hent i Hi) as [Hz|Hz]; auto. right. left. now symmetry.
  - inversion Hp as [|? d ? ? Hi Hw]; subst; [left; auto | right; eauto].
Qed.
