(** Repeated renders (C20) and insertion of boxes that are not stacked (C17). *)
From Coq Require Import List ZArith QArith Qfield Bool Lia Lqa Setoid.
From Verif Require Import Py PyFacts LayoutModel LayoutSpec LayoutProofs LayoutProofs2
  LayoutProofs3.
Import ListNotations.
Open Scope Q_scope.

(** ** C20 *)
Definition same (S T : store) : Prop :=
  (forall i, st_rect T i = st_rect S i) /\ (forall t, st_text T t = st_text S t).

Lemma earlier_same : forall owner S T st, same S T -> earlier owner S st ->
  earlier owner T st.
Proof.
  intros owner S T st [H1 H2] HE i r Hi. destruct (HE i r Hi) as [A B].
  rewrite H1. split; auto. intros t Ht. rewrite H2. auto.
Qed.

Lemma set_rect_again : forall owner S l r, laid (earlier owner S) S l r ->
  user_tree owner l -> no_scaled_text l ->
  forall T, same S T -> exists T', set_rect l r T = Ok T' /\ same S T'.
Proof.
  intros owner S. induction l as [h cs IH] using layout_rect.
  intros r HL Hu Hn T HT. apply laid_inv in HL. destruct HL as [os [dd [HR [Hc HF]]]].
  set (R := content h r) in *.
  assert (Ht : l_texts h = []) by (apply (Hn (Node h cs)); constructor).
  assert (HT1 : same S (entered h R T)).
  { unfold entered. rewrite Ht. destruct HT as [H1 H2]. split; simpl; auto.
    intro i. destruct (Nat.eqb i (l_id h)) eqn:Ei; auto.
    apply Nat.eqb_eq in Ei. subst. now rewrite HR. }
  assert (Hkid : forall c, In c cs -> forall f, lazy_in f (head c) ->
            stable owner (l_id h) f).
  { intros c Hi f Hf. apply user_lazy_stable. apply (Hu (Node h cs) c f); auto. constructor. }
  assert (Hsub : forall c, In c cs -> user_tree owner c /\ no_scaled_text c).
  { intros c Hi. split.
    - intros p d f Hp Hd Hf. apply (Hu p d f); auto. eapply within_kid; eauto.
    - intros d Hd. apply Hn. eapply within_kid; eauto. }
  assert (Hgo : forall fu dd0 T0, same S T0 ->
    chain (at_box (earlier owner S) h R) (l_horizontal h) R fu cs dd0 os dd ->
    exists T', places (l_horizontal h) R fu cs dd0 T0 os dd T' /\ same S T').
  { clear Hc HT HT1 HR Ht Hu Hn. intros fu dd0 T0 HT0 Hc. revert T0 HT0.
    induction Hc as [|c cs dd1 st o dd' os dd2 [HE HE'] H1 H3 IH2]; intros T0 HT0.
    - exists T0. split; auto. constructor.
    - inversion IH as [|? ? IHc IHcs]; subst. inversion HF as [|? ? ? ? F1 F2]; subst.
      assert (H1' : child_rect (l_horizontal h) R fu c dd1 T0 = Ok (o, dd')).
      { eapply child_rect_replay; [|exact H1]. intros f w Hf Hw.
        apply (Hkid c (or_introl eq_refl) f Hf st T0); auto.
        - eapply earlier_same; eauto.
        - rewrite HE'. discriminate. }
      destruct (Hsub c (or_introl eq_refl)) as [Hu1 Hn1].
      destruct (IHc o F1 Hu1 Hn1 T0 HT0) as [T1 [A1 A2]].
      destruct (IH2 IHcs F2) with (T0 := T1) as [T2 [B1 B2]]; auto.
      + intros d Hd. apply Hkid. now right.
      + intros d Hd. apply Hsub. now right.
      + exists T2. split; auto. econstructor; eauto. }
  destruct (Hgo _ _ _ HT1 Hc) as [T' [A B]].
  exists T'. split; auto. eapply set_rect_intro. exact A.
Qed.

Theorem render_again : forall owner l r s S,
  NoDup (ids l) -> owned owner l -> user_tree owner l -> no_scaled_text l ->
  fresh s -> set_rect l r s = Ok S ->
  exists S', set_rect l r S = Ok S' /\ (forall i, st_rect S' i = st_rect S i) /\
    (forall t, st_text S' t = st_text S t).
Proof.
  intros owner l r s S Hn Ho Hu Ht Hf H.
  assert (HL := first_render_laid _ _ _ _ _ Hn Ho Hf H).
  destruct (set_rect_again owner S l r HL Hu Ht S) as [S' [A [B C]]].
  - split; auto.
  - exists S'. auto.
Qed.

(** ** C17 *)
Lemma agree_refl : forall c s, agree_outside c s s.
Proof. intros. split; auto. Qed.
Lemma agree_trans : forall c s1 s2 s3, agree_outside c s1 s2 -> agree_outside c s2 s3 ->
  agree_outside c s1 s3.
Proof.
  intros c s1 s2 s3 [A B] [A' B']. split; intros.
  - rewrite A, A'; auto.
  - rewrite B, B'; auto.
Qed.
Lemma agree_sym : forall c s1 s2, agree_outside c s1 s2 -> agree_outside c s2 s1.
Proof. intros c s1 s2 [A B]. split; intros; symmetry; auto. Qed.

(** The texts of [l] are not texts of [c]. *)
Definition apart (c l : layout) : Prop := forall t, text_of t l -> ~ text_of t c.

Lemma entered_agree : forall c h R s1 s2,
  (forall t, In t (l_texts h) -> ~ text_of t c) ->
  agree_outside c s1 s2 -> agree_outside c (entered h R s1) (entered h R s2).
Proof.
  intros c h R s1 s2 Hd [A B].
  assert (Hx : forall ts s1 s2, (forall t, In t ts -> ~ text_of t c) ->
    agree_outside c s1 s2 -> agree_outside c (run_callbacks R ts s1) (run_callbacks R ts s2)).
  { induction ts as [|t ts IH]; intros t1 t2 Hts Hag; auto.
    unfold run_callbacks in *. simpl. apply IH; [intros; apply Hts; now right|].
    destruct Hag as [A1 B1]. split; simpl; auto. intros u Hu.
    destruct (Nat.eqb u t); auto. rewrite B1; auto. apply Hts. now left. }
  apply Hx; auto. split; simpl; auto. intros i Hi.
  destruct (Nat.eqb i (l_id h)); auto.
Qed.

Lemma child_rect_agree : forall c hor r fu d dd s1 s2 x,
  (forall f, lazy_in f (head d) -> forall s1 s2, agree_outside c s1 s2 -> f s1 = f s2) ->
  agree_outside c s1 s2 ->
  child_rect hor r fu d dd s1 = Ok x -> child_rect hor r fu d dd s2 = Ok x.
Proof.
  intros c hor r fu d dd s1 s2 x Hf Ha H. eapply child_rect_replay; [|exact H].
  intros f w Hl Hw. now rewrite <- (Hf f Hl s1 s2 Ha).
Qed.

Lemma set_rect_agree : forall c l, ignores c l -> apart c l ->
  forall r s1 s2 S1, agree_outside c s1 s2 -> set_rect l r s1 = Ok S1 ->
  exists S2, set_rect l r s2 = Ok S2 /\ agree_outside c S1 S2.
Proof.
  intro c. induction l as [h cs IH] using layout_rect. intros Hi Ha r s1 s2 S1 Hag H.
  apply set_rect_inv in H. destruct H as [os [dd H]].
  assert (He : agree_outside c (entered h (content h r) s1) (entered h (content h r) s2)).
  { apply entered_agree; auto. intros t Ht. apply Ha. exists (Node h cs). split; auto. constructor. }
  assert (Hk : forall d, In d cs -> ignores c d /\ apart c d).
  { intros d Hd. split.
    - intros b f Hb. apply Hi. eapply within_kid; eauto.
    - intros t [b [Hb Ht]]. apply Ha. exists b. split; auto. eapply within_kid; eauto. }
  clear Hag.
  assert (Hgo : exists S2, places (l_horizontal h) (content h r)
      (snd (main_axis (Node h cs) (content h r))) cs
      (fst (main_axis (Node h cs) (content h r)))
      (entered h (content h r) s2) os dd S2 /\ agree_outside c S1 S2).
  { revert H He. generalize (entered h (content h r) s1), (entered h (content h r) s2).
    generalize (fst (main_axis (Node h cs) (content h r))),
      (snd (main_axis (Node h cs) (content h r))). clear Hi Ha.
    intros dd0 fu t1 t2 H. revert t2.
    induction H as [|d cs dd1 u1 o dd' u2 os dd2 u3 H1 H2 H3 IH2]; intros t2 Hag.
    - exists t2. split; auto. constructor.
    - inversion IH as [|? ? IHd IHcs]; subst.
      destruct (Hk d (or_introl eq_refl)) as [Hi Ha].
      destruct (IHd Hi Ha o u1 t2 u2 Hag H2) as [v2 [A1 A2]].
      destruct (IH2 IHcs) with (t2 := v2) as [v3 [B1 B2]]; auto.
      + intros. apply Hk. now right.
      + exists v3. split; auto. econstructor; eauto.
        eapply child_rect_agree; eauto. intros f Hf. apply (Hi d f); auto. constructor. }
  destruct Hgo as [S2 [A B]]. exists S2. split; auto. eapply set_rect_intro; eauto.
Qed.

Lemma run_callbacks_outside : forall R ts s t, ~ In t ts ->
  st_text (run_callbacks R ts s) t = st_text s t.
Proof. exact run_callbacks_text. Qed.

(** Laying out [c] changes only [c]. *)
Lemma set_rect_outside : forall l r s S, set_rect l r s = Ok S -> agree_outside l s S.
Proof.
  intros l r s S H. split.
  - intros i Hi. symmetry. eapply set_rect_frame; eauto.
  - revert r s S H. induction l as [h cs IH] using layout_rect. intros r s S H t Ht.
    apply set_rect_inv in H. destruct H as [os [dd H]].
    assert (E0 : st_text (entered h (content h r) s) t = st_text s t).
    { unfold entered. rewrite run_callbacks_text; auto. intro Hin. apply Ht.
      exists (Node h cs). split; auto. constructor. }
    rewrite <- E0. clear E0.
    assert (Hk : forall d, In d cs -> ~ text_of t d).
    { intros d Hd [b [Hb Hbt]]. apply Ht. exists b. split; auto. eapply within_kid; eauto. }
    clear Ht. revert H. generalize (entered h (content h r) s).
    generalize (fst (main_axis (Node h cs) (content h r))),
      (snd (main_axis (Node h cs) (content h r))).
    intros dd0 fu s0 H.
    induction H as [|d cs dd1 u1 o dd' u2 os dd2 u3 H1 H2 H3 IH2]; auto.
    inversion IH as [|? ? IHd IHcs]; subst.
    rewrite (IHd _ _ _ H2 t) by (apply Hk; now left).
    apply IH2; auto. intros. apply Hk. now right.
Qed.


Lemma positioned_managed : forall hor c, positioned c -> is_managed hor c = false.
Proof.
  intros hor c H. unfold is_managed. destruct hor.
  - specialize (H X). simpl in H. destruct (l_x (head c)); congruence.
  - specialize (H Y). simpl in H. destruct (l_y (head c)); congruence.
Qed.

Lemma inserted_head : forall c l l', inserted c l l' -> head l' = head l.
Proof. destruct 1; reflexivity. Qed.

Lemma requests_app : forall hor a b, requests hor (a ++ b) = requests hor a ++ requests hor b.
Proof. intros. unfold requests. now rewrite filter_app, map_app. Qed.

Lemma inserted_request : forall c l l', inserted c l l' -> positioned c ->
  size_request l' = size_request l.
Proof.
  intros c l l' H Hp. induction H as [h cs1 cs2|h cs1 d d' cs2 H IH];
    rewrite !size_request_eq; cbn zeta.
  - rewrite !requests_app. unfold requests at 2. simpl.
    rewrite positioned_managed by auto. reflexivity.
  - rewrite !requests_app. unfold requests at 2 4. simpl.
    unfold is_managed. rewrite (inserted_head _ _ _ H).
    destruct (match (if l_horizontal h then l_x (head d) else l_y (head d)) with
              | Some _ => false | None => true end); simpl; [rewrite IH|]; reflexivity.
Qed.

Lemma inserted_main_axis : forall c h cs cs' R, positioned c ->
  inserted c (Node h cs) (Node h cs') ->
  main_axis (Node h cs') R = main_axis (Node h cs) R.
Proof.
  intros c h cs cs' R Hp H. unfold main_axis, managed_children. cbn [head kids].
  assert (E : fold_left (account (if l_horizontal h then fst else snd)
                (if l_horizontal h then rw R else rh R))
                (filter (is_managed (l_horizontal h)) cs')
                (0%Z, if l_horizontal h then rw R else rh R) =
              fold_left (account (if l_horizontal h then fst else snd)
                (if l_horizontal h then rw R else rh R))
                (filter (is_managed (l_horizontal h)) cs)
                (0%Z, if l_horizontal h then rw R else rh R)).
  { inversion H as [? cs1 cs2|? cs1 d d' cs2 Hd]; subst.
    - rewrite !filter_app. simpl. now rewrite positioned_managed.
    - rewrite !filter_app. simpl. unfold is_managed at 2 6.
      rewrite (inserted_head _ _ _ Hd).
      destruct (match (if l_horizontal h then l_x (head d) else l_y (head d)) with
                | Some _ => false | None => true end); auto.
      rewrite !fold_left_app. simpl. unfold account at 2 5.
      now rewrite (inserted_request _ _ _ Hd Hp). }
  now rewrite E.
Qed.

Lemma child_rect_same : forall hor R fu d d' dd s, head d' = head d ->
  size_request d' = size_request d ->
  child_rect hor R fu d' dd s = child_rect hor R fu d dd s.
Proof. intros hor R fu d d' dd s H1 H2. unfold child_rect. now rewrite H1, H2. Qed.

Lemma places_app : forall hor R fu cs1 cs2 dd s os dd2 s2,
  places hor R fu (cs1 ++ cs2) dd s os dd2 s2 ->
  exists os1 os2 dd1 s1, os = os1 ++ os2 /\ places hor R fu cs1 dd s os1 dd1 s1 /\
    places hor R fu cs2 dd1 s1 os2 dd2 s2.
Proof.
  induction cs1 as [|c cs1 IH]; simpl; intros cs2 dd s os dd2 s2 H.
  - exists [], os, dd, s. split; auto. split; auto. constructor.
  - inversion H as [|? ? ? ? o dd' s1 os' ? ? H1 H2 H3]; subst.
    destruct (IH _ _ _ _ _ _ H3) as [os1 [os2 [dd1 [t1 [E [A B]]]]]]. subst.
    exists (o :: os1), os2, dd1, t1. split; auto. split; auto. econstructor; eauto.
Qed.

Lemma places_det : forall hor R fu cs dd s os dd2 s2,
  places hor R fu cs dd s os dd2 s2 -> forall os' dd2' s2',
  places hor R fu cs dd s os' dd2' s2' -> os' = os /\ dd2' = dd2 /\ s2' = s2.
Proof.
  induction 1 as [|c cs dd s o dd' s1 os dd2 s2 H1 H2 H3 IH]; intros os' d2' t2' H'.
  - inversion H'; auto.
  - inversion H' as [|? ? ? ? o' d' t1 os0 ? ? G1 G2 G3]; subst.
    rewrite H1 in G1. injection G1 as <- <-. rewrite H2 in G2. injection G2 as <-.
    destruct (IH _ _ _ G3) as [-> [-> ->]]. auto.
Qed.

Lemma places_agree : forall c hor R fu cs,
  Forall (fun d => ignores c d /\ apart c d) cs ->
  forall dd s1 os dd2 S1, places hor R fu cs dd s1 os dd2 S1 ->
  forall s2, agree_outside c s1 s2 ->
  exists S2, places hor R fu cs dd s2 os dd2 S2 /\ agree_outside c S1 S2.
Proof.
  intros c hor R fu cs HF dd s1 os dd2 S1 H.
  induction H as [|d cs dd s o dd' s1 os dd2 s2 H1 H2 H3 IH]; intros t Hag.
  - exists t. split; auto. constructor.
  - inversion HF as [|? ? [Hi Ha] HF']; subst.
    destruct (set_rect_agree c d Hi Ha o s t s1 Hag H2) as [t1 [A1 A2]].
    destruct (IH HF' t1 A2) as [t2 [B1 B2]].
    exists t2. split; auto. econstructor; eauto.
    eapply child_rect_agree; eauto. intros f Hf. apply (Hi d f); auto. constructor.
Qed.

Theorem insertion : forall c l l', inserted c l l' -> positioned c -> ignores c l -> apart c l ->
  forall r s1 s2 S1 S2, agree_outside c s1 s2 ->
  set_rect l r s1 = Ok S1 -> set_rect l' r s2 = Ok S2 -> agree_outside c S1 S2.
Proof.
  intros c l l' H Hp. induction H as [h cs1 cs2|h cs1 d d' cs2 H IH];
    intros Hi Ha r s1 s2 S1 S2 Hag H1 H2;
    apply set_rect_inv in H1; apply set_rect_inv in H2;
    destruct H1 as [os [dd H1]]; destruct H2 as [os' [dd' H2]];
    (assert (He : agree_outside c (entered h (content h r) s1) (entered h (content h r) s2)) by
      (apply entered_agree; auto; intros t Ht; apply Ha; eexists; split; [constructor|exact Ht])).
  - rewrite (inserted_main_axis c h (cs1 ++ cs2) _ _ Hp) in H2 by constructor.
    assert (HF : forall d, In d (cs1 ++ cs2) -> ignores c d /\ apart c d).
    { intros d Hd. split.
      - intros b f Hb. apply Hi. eapply within_kid; eauto.
      - intros t [b [Hb Ht]]. apply Ha. exists b. split; auto. eapply within_kid; eauto. }
    apply places_app in H1. destruct H1 as [o1 [o2 [d1 [t1 [-> [A1 A2]]]]]].
    apply places_app in H2. destruct H2 as [p1 [p2 [e1 [u1 [-> [B1 B2]]]]]].
    inversion B2 as [|? ? ? ? o ddc u2 p3 ? ? C1 C2 C3]; subst.
    assert (F1 : Forall (fun d => ignores c d /\ apart c d) cs1)
      by (apply Forall_forall; intros; apply HF; apply in_or_app; auto).
    assert (F2 : Forall (fun d => ignores c d /\ apart c d) cs2)
      by (apply Forall_forall; intros; apply HF; apply in_or_app; auto).
    destruct (places_agree c _ _ _ _ F1 _ _ _ _ _ A1 _ He) as [v1 [D1 D2]].
    destruct (places_det _ _ _ _ _ _ _ _ _ D1 _ _ _ B1) as [-> [-> ->]].
    assert (Hdd : ddc = d1).
    { apply child_rect_inv in C1. destruct C1 as [_ [_ C1]]. rewrite C1.
      fold (main (l_horizontal h)).
      destruct (pos_arg (main (l_horizontal h)) c) eqn:E; auto. now apply Hp in E. }
    subst ddc.
    assert (Hag2 : agree_outside c t1 u2).
    { eapply agree_trans; [exact D2|]. eapply set_rect_outside; eauto. }
    destruct (places_agree c _ _ _ _ F2 _ _ _ _ _ A2 _ Hag2) as [v2 [E1 E2]].
    destruct (places_det _ _ _ _ _ _ _ _ _ E1 _ _ _ C3) as [_ [_ ->]]. exact E2.
  - rewrite (inserted_main_axis c h (cs1 ++ d :: cs2) _ _ Hp) in H2 by now constructor.
    assert (HF : forall d0, In d0 (cs1 ++ d :: cs2) -> ignores c d0 /\ apart c d0).
    { intros d0 Hd. split.
      - intros b f Hb. apply Hi. eapply within_kid; eauto.
      - intros t [b [Hb Ht]]. apply Ha. exists b. split; auto. eapply within_kid; eauto. }
    apply places_app in H1. destruct H1 as [o1 [o2 [d1 [t1 [-> [A1 A2]]]]]].
    apply places_app in H2. destruct H2 as [p1 [p2 [e1 [u1 [-> [B1 B2]]]]]].
    inversion A2 as [|? ? ? ? o ddc t2 o3 ? ? G1 G2 G3]; subst.
    inversion B2 as [|? ? ? ? o' ddc' u2 p3 ? ? C1 C2 C3]; subst.
    assert (F1 : Forall (fun d => ignores c d /\ apart c d) cs1)
      by (apply Forall_forall; intros; apply HF; apply in_or_app; auto).
    assert (F2 : Forall (fun d => ignores c d /\ apart c d) cs2)
      by (apply Forall_forall; intros; apply HF; apply in_or_app; right; now right).
    destruct (HF d) as [Fi Fa]; [apply in_or_app; right; now left|].
    destruct (places_agree c _ _ _ _ F1 _ _ _ _ _ A1 _ He) as [v1 [D1 D2]].
    destruct (places_det _ _ _ _ _ _ _ _ _ D1 _ _ _ B1) as [-> [-> ->]].
    rewrite (child_rect_same _ _ _ d d' _ _ (inserted_head _ _ _ H)
              (inserted_request _ _ _ H Hp)) in C1.
    assert (G1' : child_rect (l_horizontal h) (content h r)
              (snd (main_axis (Node h (cs1 ++ d :: cs2)) (content h r))) d d1 v1 = Ok (o, ddc)).
    { eapply child_rect_agree; eauto. intros f Hf. apply (Fi d f); auto. constructor. }
    rewrite G1' in C1. injection C1 as <- <-.
    assert (Hag2 := IH Fi Fa _ _ _ _ _ D2 G2 C2).
    destruct (places_agree c _ _ _ _ F2 _ _ _ _ _ G3 _ Hag2) as [v2 [E1 E2]].
    destruct (places_det _ _ _ _ _ _ _ _ _ E1 _ _ _ C3) as [_ [_ ->]]. exact E2.
Qed.

(** ** C21: the final state of a scaled text *)
Definition texts_list (cs : list layout) : list nat := flat_map texts cs.
Lemma texts_node : forall h cs, texts (Node h cs) = l_texts h ++ texts_list cs.
Proof. reflexivity. Qed.

Lemma text_of_texts : forall l t, text_of t l -> In t (texts l).
Proof.
  intros l t [c [Hw Ht]]. induction Hw as [[h cs]|c d h cs Hi Hw IH].
  - rewrite texts_node. apply in_or_app. now left.
  - rewrite texts_node. apply in_or_app. right. unfold texts_list. apply in_flat_map. eauto.
Qed.

Lemma run_callbacks_once : forall R ts s t, NoDup ts -> In t ts ->
  st_text (run_callbacks R ts s) t = scale_callback R (st_text s t).
Proof.
  intros R. induction ts as [|u ts IH]; intros s t Hn Hi; [destruct Hi|].
  inversion Hn; subst. unfold run_callbacks in *. simpl.
  destruct Hi as [->|Hi].
  - assert (E := run_callbacks_text R ts
        (upd_text s t (scale_callback R (st_text s t))) t H1). unfold run_callbacks in E.
    rewrite E. simpl. now rewrite Nat.eqb_refl.
  - rewrite IH; auto. simpl. destruct (Nat.eqb t u) eqn:E; auto.
    apply Nat.eqb_eq in E. subst. contradiction.
Qed.

Lemma text_final : forall l r s S, NoDup (ids l) -> NoDup (texts l) ->
  set_rect l r s = Ok S ->
  forall c t R, within c l -> In t (l_texts (head c)) -> area c S = Some R ->
  st_text S t = scale_callback R (st_text s t).
Proof.
  induction l as [h cs IH] using layout_rect. intros r s S Hn Ht H c t R Hc Hin HR.
  assert (Hself := set_rect_self _ _ _ _ Hn H).
  apply set_rect_inv in H. destruct H as [os [dd H]].
  rewrite texts_node in Ht. apply NoDup_app_inv in Ht. destruct Ht as [T1 [T2 T3]].
  rewrite ids_node in Hn. inversion Hn as [|? ? Hni Hn']; subst.
  inversion Hc as [|? d ? ? Hi Hw]; subst.
  - cbn [head] in Hin, Hself. unfold area in Hself, HR. cbn [head] in Hself, HR.
    rewrite Hself in HR. injection HR as HR.
    rewrite HR in H.
    assert (E : st_text (entered h R s) t = scale_callback R (st_text s t)).
    { unfold entered. now rewrite run_callbacks_once. }
    rewrite <- E. specialize (T3 t Hin). clear - H T3. revert H.
    generalize (fst (main_axis (Node h cs) R)), (snd (main_axis (Node h cs) R)).
    intros dd0 fu H. induction H as [|d cs dd1 u1 o dd' u2 os dd2 u3 H1 H2 H3 IH2]; auto.
    unfold texts_list in T3. simpl in T3. rewrite IH2.
    + symmetry. apply (set_rect_outside _ _ _ _ H2). intro Hx. apply text_of_texts in Hx.
      apply T3. apply in_or_app. now left.
    + intro Hx. apply T3. apply in_or_app. now right.
  - assert (Htd : text_of t d) by (exists c; auto).
    assert (Hnt : ~ In t (l_texts h)).
    { intro Hx. apply (T3 t Hx). apply text_of_texts in Htd. unfold texts_list.
      apply in_flat_map. eauto. }
    assert (E : st_text (entered h (content h r) s) t = st_text s t).
    { unfold entered. now rewrite run_callbacks_text. }
    rewrite <- E. clear E Hself T1 T3 Hn Hni Hnt Hc.
    revert H. generalize (entered h (content h r) s).
    generalize (fst (main_axis (Node h cs) (content h r))),
      (snd (main_axis (Node h cs) (content h r))). intros dd0 fu s0 H.
    induction H as [|e cs dd1 u1 o dd' u2 os dd2 u3 H1 H2 H3 IH2]; [destruct Hi|].
    inversion IH as [|? ? IHe IHcs]; subst.
    unfold ids_list, texts_list in *. simpl in Hn', T2.
    apply NoDup_app_inv in Hn'. destruct Hn' as [N1 [N2 N3]].
    apply NoDup_app_inv in T2. destruct T2 as [U1 [U2 U3]].
    destruct Hi as [->|Hi].
    + assert (Hc' : In (l_id (head c)) (ids d)) by now apply within_ids.
      assert (Har : area c u2 = Some R).
      { unfold area in *. rewrite <- HR. symmetry.
        eapply places_frame; [exact H3|]. now apply N3. }
      rewrite <- (IHe _ _ _ N1 U1 H2 c t R Hw Hin Har).
      assert (Hx : ~ In t (flat_map texts cs)) by (apply U3; now apply text_of_texts).
      clear - H3 Hx. induction H3 as [|d cs dd1 u1 o dd' u2 os dd2 u3 H1 H2 H3 IH2]; auto.
      simpl in Hx. rewrite IH2.
      * symmetry. apply (set_rect_outside _ _ _ _ H2). intro Hy. apply text_of_texts in Hy.
        apply Hx. apply in_or_app. now left.
      * intro Hy. apply Hx. apply in_or_app. now right.
    + rewrite (IH2 IHcs U2 HR N2 Hi). f_equal.
      symmetry. apply (set_rect_outside _ _ _ _ H2). intro Hy. apply text_of_texts in Hy.
      apply (U3 t Hy). apply in_flat_map. exists d. split; auto. now apply text_of_texts.
Qed.
