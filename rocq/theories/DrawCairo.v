(** The attributes of texts in the Cairo backend. *)
From Coq Require Import List ZArith NArith QArith Bool String Lia.
From Verif Require Import Py PyFacts StyleModel StyleSpec StyleProofs
  TextModel TextSpec TextBoxModel TextBoxProofs DrawModel DrawSpec DrawLoop.
Import ListNotations.
Local Open Scope nat_scope.

Lemma utf8_width : forall c, ~ (55296 <= c <= 57343)%N -> exists bs, utf8_char c = Ok bs /\ List.length bs = width c.
Proof.
  intros c H. unfold utf8_char, width. destruct (c <? 128)%N; [eexists; split; reflexivity|].
  destruct (c <? 2048)%N; [eexists; split; reflexivity|]. destruct (c <? 65536)%N; [|eexists; split; reflexivity].
  destruct ((55296 <=? c) && (c <=? 57343))%N eqn:E; [|eexists; split; reflexivity].
  exfalso. apply H. apply andb_true_iff in E. destruct E as [E1 E2].
  apply N.leb_le in E1. apply N.leb_le in E2. auto.
Qed.

(** The styles of the bytes. *)
Definition byte_styles (gl : list (char * list style)) : list (list style) :=
  flat_map (fun g => repeat (snd g) (width (fst g))) gl.
Lemma byte_styles_app : forall a b, byte_styles (a ++ b) = byte_styles a ++ byte_styles b.
Proof. intros. apply flat_map_app. Qed.
Lemma bytes_count : forall gl, encodable (map fst gl) ->
  exists bs, utf8 (map fst gl) = Ok bs /\ List.length bs = List.length (byte_styles gl).
Proof.
  induction gl as [|[c l] gl IH]; intros H.
  - exists []. split; reflexivity.
  - destruct IH as [bs [E1 E2]]. { intros d X. apply H. now right. }
    destruct (utf8_width c) as [b [B1 B2]]. { apply H. now left. }
    cbn [map fst utf8]. rewrite B1, E1. cbn [rbind]. eexists. split; [reflexivity|].
    unfold byte_styles. cbn [flat_map snd fst]. rewrite !app_length, repeat_length, B2. f_equal. exact E2.
Qed.
Lemma byte_length_glyphs : forall gl, encodable (map fst gl) ->
  byte_length (map fst gl) = Ok (List.length (byte_styles gl)).
Proof. intros gl H. destruct (bytes_count gl H) as [bs [E1 E2]]. unfold byte_length. rewrite E1. cbn. now rewrite E2. Qed.

(** The stack of the code holds the sums of the styles around. *)
Inductive sums : list (option style) -> surroundings -> Prop :=
| sums_base : forall b, valid_style b -> sums [Some b] [Some b]
| sums_none : forall st sp, sums st sp -> sums (None :: st) (None :: sp)
| sums_some : forall st sp c s, sums st sp -> valid_style s ->
    sum_of (effective (Some s :: sp)) c -> sums (Some c :: st) (Some s :: sp).
Lemma sums_active : forall st sp, sums st sp -> exists c h rest, active_style st = Ok c /\
  sum_of (effective sp) c /\ effective sp = h :: rest /\ valid_style h.
Proof.
  intros st sp H. induction H as [b V|st sp H IH|st sp c s H IH V S].
  - exists b, b, []. repeat split; auto. intros a. cbn. now destruct (get b a).
  - exact IH.
  - exists c, s, (effective sp). repeat split; auto.
Qed.
Lemma sum_prio : forall c h rest, sum_of (h :: rest) c -> valid_style h ->
  num (s_priority c) = Ok (prio h).
Proof.
  intros c h rest S V. specialize (S Priority). cbn [value get] in S. rewrite <- (num_prio h V).
  specialize (V Priority). cbn [allowed get] in V. f_equal. rewrite S.
  destruct V as [[q ->]|[b ->]]; reflexivity.
Qed.
Lemma sum_compose : forall l c s, sum_of l c -> sum_of (s :: l) (compose c s).
Proof.
  intros l c s H a. unfold compose. rewrite update_get. cbn [value]. destruct (get s a) eqn:E; auto.
  (* get s a = PNone *)
Qed.

Section Cairo.
Variable styles : str -> option style.
Hypothesis vstyles : forall n s, styles n = Some s -> valid_style s.

(** What is true when the attributes up to [start] have been pushed. *)
Record inv (sp : surroundings) (start : nat) (segs : list segment)
  (gl : list (char * list style)) : Prop := mkInv {
  i_start : start <= List.length (byte_styles gl);
  i_segs : forall g, In g segs -> snd g <= start;
  i_done : forall p l, p < start -> nth_error (byte_styles gl) p = Some l ->
    exists s, styled_at segs p s /\ sum_of l s;
  i_open : forall p l, start <= p -> nth_error (byte_styles gl) p = Some l -> l = effective sp }.

Lemma inv_more : forall sp start segs gl new, inv sp start segs gl ->
  (forall g, In g new -> snd g = effective sp) -> inv sp start segs (gl ++ new).
Proof.
  intros sp start segs gl new [H1 H2 H3 H4] Hn. constructor; auto.
  - rewrite byte_styles_app, app_length. lia.
  - intros p l Hp Hl. rewrite byte_styles_app in Hl. rewrite nth_error_app1 in Hl by lia. eauto.
  - intros p l Hp Hl. rewrite byte_styles_app in Hl.
    destruct (Nat.ltb p (List.length (byte_styles gl))) eqn:E.
    + apply Nat.ltb_lt in E. rewrite nth_error_app1 in Hl by lia. eauto.
    + apply Nat.ltb_ge in E. rewrite nth_error_app2 in Hl by lia.
      apply nth_error_In in Hl. unfold byte_styles in Hl. apply in_flat_map in Hl.
      destruct Hl as [g [G1 G2]]. apply repeat_spec in G2. subst. auto.
Qed.
Lemma inv_push : forall sp sp' start segs gl c, inv sp start segs gl -> sum_of (effective sp) c ->
  inv sp' (List.length (byte_styles gl)) (segs ++ [(c, start, List.length (byte_styles gl))]) gl.
Proof.
  intros sp sp' start segs gl c [H1 H2 H3 H4] Hc. constructor; auto.
  - intros g Hg. apply in_app_or in Hg. destruct Hg as [Hg|[<-|[]]]; [|auto].
    apply H2 in Hg. lia.
  - intros p l Hp Hl. destruct (Nat.ltb p start) eqn:E.
    + apply Nat.ltb_lt in E. destruct (H3 p l E Hl) as [s [[[g [G1 G2]] U] S]]. exists s.
      split; auto. split.
      * exists g. split; auto. apply in_or_app. auto.
      * intros g' G' C'. apply in_app_or in G'. destruct G' as [G'|[<-|[]]]; [auto|].
        unfold covers in C'. apply andb_true_iff in C'. destruct C' as [C' _].
        apply Nat.leb_le in C'. lia.
    + apply Nat.ltb_ge in E. exists c. split.
      * split.
        -- eexists. split; [apply in_or_app; right; left; reflexivity|]. unfold covers.
           apply andb_true_iff. split; [apply Nat.leb_le; lia|apply Nat.ltb_lt; lia].
        -- intros g' G' C'. apply in_app_or in G'. destruct G' as [G'|[<-|[]]]; [|auto].
           destruct g' as [[s' a'] b']. apply H2 in G'. cbn [snd] in G'. unfold covers in C'.
           apply andb_true_iff in C'. destruct C' as [_ C']. apply Nat.ltb_lt in C'. lia.
      * rewrite (H4 p l E Hl). exact Hc.
  - intros p l Hp Hl. exfalso. assert (nth_error (byte_styles gl) p <> None) by congruence.
    apply nth_error_Some in H. lia.
Qed.

(** The characters added by a token that is not a begin or an end. *)
Definition newline_glyphs (empty : bool) (n : nat) (l : list style) : list (char * list style) :=
  (if empty then match n with O => [] | _ => [(invisible_space, l)] end else []) ++
  match n with
  | O => []
  | S k => (10%N, l) :: List.concat (repeat [(invisible_space, l); (10%N, l)] k)
  end.
Lemma newline_chars : forall n empty l, map fst (newline_glyphs empty n l) = newline_text empty n /\
  (forall g, In g (newline_glyphs empty n l) -> snd g = l /\ (fst g = 10%N \/ fst g = invisible_space)).
Proof.
  intros n empty l. unfold newline_glyphs. rewrite map_app.
  assert (R : forall k, map fst (List.concat (repeat [(invisible_space, l); (10%N, l)] k)) = newline_text true k /\
    (forall g, In g (List.concat (repeat [(invisible_space, l); (10%N, l)] k)) ->
      snd g = l /\ (fst g = 10%N \/ fst g = invisible_space))).
  { induction k as [|k [I1 I2]]; [split; [reflexivity|intros g []]|]. cbn [repeat List.concat]. split.
    - rewrite map_app. cbn [map fst app newline_text]. now rewrite I1.
    - intros g [<-|[<-|X]]; cbn; auto. }
  destruct n as [|n]; [split; [destruct empty; reflexivity|destruct empty; intros g []]|].
  destruct (R n) as [R1 R2]. split.
  - cbn [newline_text]. destruct empty; cbn [map fst app]; now rewrite R1.
  - intros g X. destruct empty; cbn [app] in X.
    + destruct X as [<-|[<-|X]]; cbn; auto.
    + destruct X as [<-|X]; cbn; auto.
Qed.

Lemma loop_cairo : forall ts st sp start gl empty segs,
  known_names styles ts ->
  nest (List.length st - 1) ts = Some 0 -> sums st sp -> inv sp start segs gl ->
  encodable (map fst gl) -> (forall t, In (TText t) ts -> encodable t) ->
  exists start' segs' gl' b, attr_loop styles ts st start (map fst gl) empty segs =
      Ok ([Some b], start', map fst gl', segs') /\
    last st None = Some b /\ sum_of [b] b /\
    gl' = gl ++ cairo_glyphs styles sp empty ts /\ encodable (map fst gl') /\
    inv [Some b] start' segs' gl'.
Proof.
  induction ts as [|t ts IH]; intros st sp start gl empty segs Hk Hn Hs Hi He Ht.
  - cbn in Hn. injection Hn as Hn. cbn [attr_loop cairo_glyphs].
    assert (Sb : exists b, st = [Some b] /\ sp = [Some b]).
    { inversion Hs; subst; eauto.
      - inversion H; subst; cbn in Hn; lia.
      - inversion H; subst; cbn in Hn; lia. }
    destruct Sb as [b [-> ->]]. exists start, segs, gl, b. rewrite app_nil_r.
    repeat split; auto; try apply Hi. intros a. cbn. now destruct (get b a).
  - assert (Hk' : known_names styles ts) by (intros n X; apply Hk; now right).
    assert (Ht' : forall t, In (TText t) ts -> encodable t) by (intros u X; apply Ht; now right).
    destruct t as [s|n|n|]; cbn [nest attr_loop cairo_glyphs] in *.
    + set (new := map (fun c => (c, effective sp)) s).
      assert (En : map fst new = s) by (unfold new; rewrite map_map; cbn; apply map_id).
      destruct (IH st sp start (gl ++ new) (empty && match s with [] => true | _ => false end) segs)
        as [start' [segs' [gl' [b [E [Hl [Sb [Eg [Ee Hi']]]]]]]]]; auto.
      * apply inv_more; auto. intros g X. unfold new in X. apply in_map_iff in X. now destruct X as [c [<- _]].
      * rewrite map_app, En. intros c X. apply in_app_or in X. destruct X as [X|X]; [auto|].
        apply (Ht s); auto. now left.
      * exists start', segs', gl', b. rewrite map_app, En in E. rewrite E. repeat split; auto; try apply Hi'.
        rewrite Eg, <- app_assoc. reflexivity.
    + destruct (newline_chars n empty (effective sp)) as [En Eg].
      set (new := newline_glyphs empty n (effective sp)) in *.
      destruct (IH st sp start (gl ++ new) (match n with O => empty | _ => true end) segs)
        as [start' [segs' [gl' [b [E [Hl [Sb [Eg' [Ee Hi']]]]]]]]]; auto.
      * apply inv_more; auto. intros g X. now apply Eg.
      * rewrite map_app. intros c X. apply in_app_or in X. destruct X as [X|X]; [auto|].
        apply in_map_iff in X. destruct X as [g [<- X]]. destruct (Eg g X) as [_ [-> | ->]];
        unfold invisible_space; lia.
      * exists start', segs', gl', b. rewrite map_app, En in E. rewrite E. repeat split; auto; try apply Hi'.
        rewrite Eg', <- app_assoc. unfold new, newline_glyphs. now rewrite <- app_assoc.
    + destruct (sums_active st sp Hs) as [c [h [rest [Ea [Sc [Eh Vh]]]]]].
      rewrite Ea. cbn [rbind]. rewrite (byte_length_glyphs gl He). cbn [rbind].
      rewrite dummyb_starts.
      assert (Go : forall o, sums (o :: st) (effect styles sp n :: sp) ->
        exists start' segs' gl' b, attr_loop styles ts (o :: st) (List.length (byte_styles gl)) (map fst gl) empty
          (segs ++ [(c, start, List.length (byte_styles gl))]) = Ok ([Some b], start', map fst gl', segs') /\
        last st None = Some b /\ sum_of [b] b /\
        gl' = gl ++ cairo_glyphs styles (effect styles sp n :: sp) empty ts /\ encodable (map fst gl') /\
        inv [Some b] start' segs' gl').
      { intros o So. destruct (IH (o :: st) (effect styles sp n :: sp) (List.length (byte_styles gl)) gl empty
            (segs ++ [(c, start, List.length (byte_styles gl))]))
          as [start' [segs' [gl' [b [E [Hl [Sb [Eg [Ee Hi']]]]]]]]]; auto.
        - cbn [List.length]. replace (S (List.length st) - 1) with (S (List.length st - 1)); auto.
          destruct st; [inversion Hs|cbn; lia].
        - apply inv_push with (sp := sp); auto.
        - exists start', segs', gl', b. repeat split; auto; try apply Hi'.
          destruct st; [inversion Hs|exact Hl]. }
      destruct (dummyb n) eqn:D.
      * apply Go. unfold effect. rewrite D. now constructor.
      * destruct (Hk n (or_introl eq_refl)) as [[r ->]|K]; [discriminate|].
        destruct (styles n) as [s0|] eqn:E0; [|contradiction].
        rewrite Eh in Sc. rewrite (sum_prio c h rest Sc Vh), (num_prio s0) by eauto. cbn [rbind].
        apply Go. unfold effect. rewrite D, E0, Eh.
        destruct (Qle_bool (prio h) (prio s0)); cbn [negb].
        -- constructor; eauto. cbn [effective flat_map app]. fold (effective sp). rewrite Eh.
           now apply sum_compose.
        -- now constructor.
    + destruct (sums_active st sp Hs) as [c [h [rest [Ea [Sc [Eh Vh]]]]]].
      rewrite Ea. cbn [rbind]. rewrite (byte_length_glyphs gl He). cbn [rbind].
      destruct st as [|o st]; [inversion Hs|]. destruct st as [|o' st]; [discriminate|].
      cbn [List.length] in Hn. replace (S (S (List.length st)) - 1) with (S (List.length st)) in Hn by lia.
      assert (S' : sums (o' :: st) (tl sp)) by (inversion Hs; subst; cbn [tl]; auto).
      destruct (IH (o' :: st) (tl sp) (List.length (byte_styles gl)) gl empty
            (segs ++ [(c, start, List.length (byte_styles gl))]))
          as [start' [segs' [gl' [b [E [Hl [Sb [Eg [Ee Hi']]]]]]]]]; auto.
      * cbn [List.length]. replace (S (List.length st) - 1) with (List.length st) by lia. exact Hn.
      * apply inv_push with (sp := sp); auto.
      * exists start', segs', gl', b. repeat split; auto; apply Hi'.
Qed.

Lemma pango_of : forall gl segs off full, (forall p l, nth_error full p = Some l -> exists s, styled_at segs p s /\ sum_of l s) ->
  (exists before, full = before ++ byte_styles gl /\ List.length before = off) ->
  exists out, pango segs off (map fst gl) out /\
    Forall2 (fun (h : char * style) (g : char * list style) => fst h = fst g /\ sum_of (snd g) (snd h)) out gl.
Proof.
  induction gl as [|[c l] gl IH]; intros segs off full H [before [E L]].
  - exists []. cbn. auto.
  - assert (W : 0 < width c) by (unfold width; destruct (c <? 128)%N, (c <? 2048)%N, (c <? 65536)%N; lia).
    assert (N : forall k, k < width c -> nth_error full (off + k) = Some l).
    { intros k Hk. rewrite E, nth_error_app2 by lia. replace (off + k - List.length before) with k by lia.
      unfold byte_styles. cbn [flat_map fst snd]. rewrite nth_error_app1 by (rewrite repeat_length; lia).
      now apply nth_error_repeat. }
    destruct (H off l) as [s [Hs Ss]]. { rewrite <- (Nat.add_0_r off) at 1. apply N. exact W. }
    assert (Same : forall k, k < width c -> styled_at segs (off + k) s).
    { intros k Hk. destruct (H (off + k) l (N k Hk)) as [s' [Hs' Ss']].
      assert (s' = s); [|now subst]. apply style_eq. intros x. now rewrite Ss, Ss'. }
    destruct (IH segs (off + width c) full H) as [out [P F]].
    { exists (before ++ repeat l (width c)). split.
      - rewrite E. unfold byte_styles. cbn [flat_map fst snd]. now rewrite <- app_assoc.
      - rewrite app_length, repeat_length. lia. }
    exists ((c, s) :: out). cbn [map fst pango]. split; auto.
Qed.

Lemma cairo_facts : forall ts d s, balanced ts -> known_names styles ts -> styles default_ = Some d ->
  valid_style d -> valid_style s -> (forall t, In (TText t) ts -> encodable t) ->
  exists text segs out, text_and_attributes ts s styles = Ok (text, segs) /\
    pango segs 0 text out /\
    Forall2 (fun (h : char * style) (g : char * list style) => fst h = fst g /\ sum_of (snd g) (snd h))
      out (cairo_glyphs styles [Some (compose d s)] true ts) /\
    (forall g, In g segs -> snd g <= List.length (byte_styles (cairo_glyphs styles [Some (compose d s)] true ts))).
Proof.
  intros ts d s Hb Hk Hd Vd Vs He. assert (V : valid_style (compose d s)) by (apply update_valid; auto).
  destruct (loop_cairo ts [Some (compose d s)] [Some (compose d s)] 0 [] true [])
    as [start' [segs' [gl' [b [E [Hl [Sb [Eg [Ee Hi]]]]]]]]]; auto.
  - now constructor.
  - constructor.
    + cbn. lia.
    + intros g [].
    + intros p l Hp. lia.
    + intros [|p] l Hp Hx; discriminate.
  - intros c [].
  - cbn in Hl. injection Hl as <-. cbn [app] in Eg. subst gl'. unfold text_and_attributes. rewrite Hd.
    cbn [map] in E. rewrite E. cbn [rbind]. rewrite (byte_length_glyphs _ Ee). cbn [rbind rev app].
    set (gl := cairo_glyphs styles [Some (compose d s)] true ts) in *.
    destruct Hi as [H1 H2 H3 H4].
    assert (P := inv_push [Some (compose d s)] [] start' segs' gl (compose d s) (mkInv _ _ _ _ H1 H2 H3 H4) Sb).
    destruct (Nat.ltb start' (List.length (byte_styles gl))) eqn:El; cbn [rbind].
    + destruct P as [P1 P2 P3 P4].
      destruct (pango_of gl (segs' ++ [(compose d s, start', List.length (byte_styles gl))]) 0 (byte_styles gl)) as [out [O1 O2]].
      * intros p l Hp. apply P3; auto. assert (X : nth_error (byte_styles gl) p <> None) by congruence.
        now apply nth_error_Some in X.
      * now exists [].
      * do 3 eexists. split; [reflexivity|]. split; [exact O1|]. split; auto.
    + apply Nat.ltb_ge in El.
      destruct (pango_of gl segs' 0 (byte_styles gl)) as [out [O1 O2]].
      * intros p l Hp. apply H3; auto. assert (X : nth_error (byte_styles gl) p <> None) by congruence.
        apply nth_error_Some in X. lia.
      * now exists [].
      * do 3 eexists. split; [reflexivity|]. split; [exact O1|]. split; auto.
        intros g Hg. apply H2 in Hg. lia.
Qed.
End Cairo.
