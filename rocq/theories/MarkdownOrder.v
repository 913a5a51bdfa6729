(** Where markdown() puts texts: the invariant of build(). *)
From Coq Require Import String List ZArith NArith QArith Bool Lia Arith.
From Verif Require Import Py PyFacts TextModel TextSpec TextCode TextProps ShowModel ShowSpec ShowProofs LayoutModel LayoutSpec LayoutProofs SlideModel SlideSpec SlideProofs ListModel ListSpec ListProofs ListProps2 MarkdownModel MarkdownSpec MarkdownProofs.
Import ListNotations.
Local Open Scope Z_scope.

Notation slide_of m := (ls_slide (m_state m)).
Notation lists_of m := (ls_lists (m_state m)).

(** ** States *)
Definition good (m : mstate) : Prop :=
  wf (slide_of m) /\ forall i st ts, In (i, st, ts) (m_texts m) -> (i < sl_next (slide_of m))%nat.
Definition same_but_level (a b : builder) : Prop := b = set_level a (l_level b).
Record grows (m m' : mstate) : Prop := mkGrows {
  gr_good : good m';
  gr_next : (sl_next (slide_of m) <= sl_next (slide_of m'))%nat;
  gr_max : sl_max (slide_of m') = sl_max (slide_of m);
  gr_texts : exists new, m_texts m' = m_texts m ++ new /\
    forall i st ts, In (i, st, ts) new -> (sl_next (slide_of m) <= i)%nat;
  gr_lists : forall n b, nth_error (lists_of m) n = Some b ->
    exists b', nth_error (lists_of m') n = Some b' /\ same_but_level b b'
}.
Lemma same_but_level_refl : forall b, same_but_level b b.
Proof. intros [? ? ? ? ? ? ?]. reflexivity. Qed.
Lemma same_but_level_trans : forall a b c, same_but_level a b -> same_but_level b c -> same_but_level a c.
Proof. unfold same_but_level. intros a b c H1 H2. rewrite H2, H1. reflexivity. Qed.
Lemma grows_refl : forall m, good m -> grows m m.
Proof.
  intros m G. constructor; auto. - exists []. rewrite app_nil_r. split; [reflexivity|]. intros ? ? ? [].
  - intros n b H. exists b. split; [exact H|apply same_but_level_refl].
Qed.
Lemma grows_trans : forall a b c, grows a b -> grows b c -> grows a c.
Proof.
  intros a b c [G1 N1 M1 (t1 & T1 & S1) L1] [G2 N2 M2 (t2 & T2 & S2) L2]. constructor; auto; try lia.
  - exists (t1 ++ t2). rewrite T2, T1, app_assoc. split; [reflexivity|]. intros i st ts H. apply in_app_iff in H as [H|H]; [eauto|].
    apply S2 in H. lia.
  - intros n x H. destruct (L1 _ _ H) as (y & Hy & E1). destruct (L2 _ _ Hy) as (z & Hz & E2). exists z. split; [exact Hz|].
    eapply same_but_level_trans; eauto.
Qed.
(** A step that changes the slide only, or adds a list. *)
Lemma grows_step : forall m x ll sh, good m -> wf x -> (sl_next (slide_of m) <= sl_next x)%nat ->
  sl_max x = sl_max (slide_of m) ->
  (forall n b, nth_error (lists_of m) n = Some b -> exists b', nth_error ll n = Some b' /\ same_but_level b b') ->
  grows m (mkM (mkState x ll sh) (m_texts m)).
Proof.
  intros m x ll sh [W F] Wx N M L. constructor; auto.
  - split; [exact Wx|]. cbn. intros i st ts H. apply F in H. lia.
  - exists []. rewrite app_nil_r. split; [reflexivity|]. intros ? ? ? [].
Qed.
Lemma keep_lists : forall (l : list builder) n b, nth_error l n = Some b -> exists b', nth_error l n = Some b' /\ same_but_level b b'.
Proof. intros l n b H. exists b. split; [exact H|apply same_but_level_refl]. Qed.
Lemma add_list : forall (l l' : list builder) n b, nth_error l n = Some b -> exists b', nth_error (l ++ l') n = Some b' /\ same_but_level b b'.
Proof.
  intros l l' n b H. exists b. split; [|apply same_but_level_refl]. rewrite nth_error_app1; [exact H|]. apply nth_error_Some. congruence.
Qed.

Lemma nth_error_Some_lt : forall A (l : list A) n x, nth_error l n = Some x -> (n < List.length l)%nat.
Proof. intros A l n x H. apply nth_error_Some. congruence. Qed.

Section Doc.
Variable measure_text : str -> list token -> Q * Q.
Variable measure : str -> Q * Q.
Variable lexer_of : str -> option (str -> list (str * str)).
Variable esc : char.
Hypothesis Hesc : esc <> 125%N.
Notation build := (build measure_text measure lexer_of [esc]).

(** ** Marks *)
Definition visible_all (k : Z) (bs : list bhead) : bool := forallb (fun b => is_visible (b_show b) k) bs.
Definition rel (m : mstate) (base : bool) (x : list bhead * painter) (mk : mark) : Prop :=
  exists i z, snd x = PItem i z /\ (i < sl_next (slide_of m))%nat /\
    matches lexer_of (m_texts m) i (snd mk) /\
    forall k, 1 <= k -> ((if base then sl_max (slide_of m) <=? k else true) && visible_all k (fst x))%bool =
                        (if fst mk then sl_max (slide_of m) <=? k else true).
Lemma rel_grows : forall m m' base x mk, grows m m' -> rel m base x mk -> rel m' base x mk.
Proof.
  intros m m' base x [f c] [G N M (new & T & S) L] (i & z & E & I & Q & V). exists i, z. split; [exact E|]. split; [lia|].
  rewrite M. split; [|exact V]. cbn [snd] in *. rewrite T. destruct c as [st evs|lang t|]; cbn [matches] in *.
  - destruct Q as (ts & Q & R). exists ts. split; [apply in_or_app; auto|exact R].
  - destruct Q as (ts & Q & R). exists ts. split; [apply in_or_app; auto|exact R].
  - intros st ts H. apply in_app_iff in H as [H|H]; [eapply Q; eauto|]. apply S in H. lia.
Qed.
Lemma rels_grows : forall m m' base xs mks, grows m m' -> Forall2 (rel m base) xs mks -> Forall2 (rel m' base) xs mks.
Proof. intros m m' base xs mks G H. induction H; constructor; auto. eapply rel_grows; eauto. Qed.

Lemma walk_prefix : forall n bs, walk false bs n = map (fun x => (bs ++ fst x, snd x)) (walk false [] n).
Proof.
  induction n as [i z|b cs IH] using node_ind2; intro bs; cbn [walk]; [cbn [map fst snd]; now rewrite app_nil_r|].
  rewrite !app_nil_r. cbn [app]. induction IH as [|c cs Hc _ IHcs]; [reflexivity|]. cbn [flat_map]. rewrite map_app, <- IHcs. f_equal.
  rewrite (Hc (bs ++ [b])), (Hc [b]), map_map. apply map_ext. intros [p q]. cbn [fst snd]. now rewrite <- app_assoc.
Qed.
Definition walks (cs : list node) := flat_map (walk false []) cs.
Lemma walk_box : forall b cs, walk false [] (NBox b cs) = map (fun x => (b :: fst x, snd x)) (walks cs).
Proof.
  intros b cs. cbn [walk app]. rewrite app_nil_r. unfold walks. induction cs as [|c cs IH]; [reflexivity|].
  cbn [flat_map]. rewrite map_app, <- IH. f_equal. apply walk_prefix.
Qed.
Lemma walks_app : forall a b, walks (a ++ b) = walks a ++ walks b.
Proof. intros. unfold walks. apply flat_map_app. Qed.

(** Inside of a box that is always visible nothing changes. *)
Lemma rel_always : forall m base b xs mks, b_show b = always -> Forall2 (rel m base) xs mks ->
  Forall2 (rel m base) (map (fun x => (b :: fst x, snd x)) xs) mks.
Proof.
  intros m base b xs mks B H. induction H as [|x mk xs mks (i & z & E & I & Q & V) H IH]; cbn [map]; constructor; auto.
  exists i, z. split; [exact E|]. split; [exact I|]. split; [exact Q|]. intros k K. rewrite <- (V k K). cbn [fst visible_all forallb].
  rewrite B, always_visible by exact K. reflexivity.
Qed.
(** A box that appears with the current fragment. *)
Lemma rel_from : forall m b xs mks, b_show b = from_on (sl_max (slide_of m)) -> Forall2 (rel m true) xs mks ->
  Forall2 (rel m false) (map (fun x => (b :: fst x, snd x)) xs) mks.
Proof.
  intros m b xs mks B H. induction H as [|x mk xs mks (i & z & E & I & Q & V) H IH]; cbn [map]; constructor; auto.
  exists i, z. split; [exact E|]. split; [exact I|]. split; [exact Q|]. intros k K. rewrite <- (V k K). cbn [fst visible_all forallb].
  rewrite B, from_on_visible. reflexivity.
Qed.
Lemma rel_base : forall m xs mks, (forall mk, In mk mks -> fst mk = true) -> Forall2 (rel m false) xs mks -> Forall2 (rel m true) xs mks.
Proof.
  intros m xs mks A H. induction H as [|x mk xs mks (i & z & E & I & Q & V) H IH]; constructor; [|apply IH; intros; apply A; now right].
  exists i, z. split; [exact E|]. split; [exact I|]. split; [exact Q|]. intros k K. specialize (V k K). cbn [andb] in V. rewrite V.
  rewrite (A mk) by now left. destruct (sl_max (slide_of m) <=? k); reflexivity.
Qed.
Lemma lists_inside : forall b mk, In mk (lists b) -> fst mk = true.
Proof.
  assert (O : forall b inside mk, In mk (own inside b) -> fst mk = inside).
  { intros b inside. induction b as [k l|l| |bs IH|lang t|o s u items IH|] using block_ind2; intros mk H; cbn [own document] in H;
      try (destruct H as [<-|[]]; reflexivity); try destruct H.
    apply in_flat_map in H as (x & Hx & H). rewrite Forall_forall in IH. eapply IH; eauto. }
  intro b. induction b as [k l|l| |bs IH|lang t|o s u items IH|] using block_ind2; intros mk H; cbn [lists] in H; try destruct H.
  - apply in_flat_map in H as (x & Hx & H). rewrite Forall_forall in IH. eapply IH; eauto.
  - apply in_flat_map in H as (item & Hi & H). destruct H as [<-|H]; [reflexivity|]. apply in_app_iff in H as [H|H].
    + apply in_flat_map in H as (x & Hx & H). eapply O; eauto.
    + apply in_flat_map in H as (x & Hx & H). rewrite Forall_forall in IH. specialize (IH _ Hi). rewrite Forall_forall in IH. eapply IH; eauto.
Qed.

(** ** Labels *)
Definition label_rel (ll : list builder) (x : nat * list Z) (l : lab) : Prop :=
  exists b, nth_error ll (fst x) = Some b /\
    match l with
    | Num k => snd x = [k] /\ l_label b = Some (arabic measure)
    | Bul t => l_label b = Some (match t with [] => ListModel.bullet | _ => LText t end)
    end.
Definition new_labels (m m' : mstate) (ls : list lab) : Prop :=
  exists new, ls_shown (m_state m') = ls_shown (m_state m) ++ new /\ Forall2 (label_rel (lists_of m')) new ls.
Lemma labels_grow : forall m m' xs ls, grows m m' -> Forall2 (label_rel (lists_of m)) xs ls -> Forall2 (label_rel (lists_of m')) xs ls.
Proof.
  intros m m' xs ls G H. induction H as [|x l xs ls (b & N & Q) H IH]; constructor; auto.
  destruct (gr_lists _ _ G _ _ N) as (b' & N' & E). exists b'. split; [exact N'|]. unfold same_but_level in E. rewrite E. exact Q.
Qed.
Lemma new_labels_trans : forall a b c l1 l2, grows b c -> new_labels a b l1 -> new_labels b c l2 -> new_labels a c (l1 ++ l2).
Proof.
  intros a b c l1 l2 G (n1 & E1 & F1) (n2 & E2 & F2). exists (n1 ++ n2). rewrite E2, E1, app_assoc. split; [reflexivity|].
  apply Forall2_app; [eapply labels_grow; eauto|exact F2].
Qed.
Lemma new_labels_nil : forall m m', ls_shown (m_state m') = ls_shown (m_state m) -> new_labels m m' [].
Proof. intros m m' E. exists []. rewrite app_nil_r. split; [exact E|constructor]. Qed.

(** ** Trees with two places where nodes are added: at the box [bx] of the context and at the
    box [bp] of the list around it. *)
Definition frame := list node -> list node -> node.
Definition at_x (H : frame) (bx : bhead) : Prop :=
  forall B, exists C K, forall cs, H cs B = fill C (NBox bx (K ++ cs)).
Definition at_p (H : frame) (bp : bhead) : Prop :=
  forall cs, exists C K, forall B, H cs B = fill C (NBox bp (K ++ B)).
Definition shift (H : frame) (cs0 B0 : list node) : frame := fun cs B => H (cs0 ++ cs) (B0 ++ B).
Lemma shift_x : forall H cs0 B0 bx, at_x H bx -> at_x (shift H cs0 B0) bx.
Proof. intros H cs0 B0 bx A B. destruct (A (B0 ++ B)) as (C & K & E). exists C, (K ++ cs0). intro cs. unfold shift. now rewrite E, app_assoc. Qed.
Lemma shift_p : forall H cs0 B0 bp, at_p H bp -> at_p (shift H cs0 B0) bp.
Proof. intros H cs0 B0 bp A cs. destruct (A (cs0 ++ cs)) as (C & K & E). exists C, (K ++ B0). intro B. unfold shift. now rewrite E, app_assoc. Qed.

(** The list of the context. *)
Definition in_list (m : mstate) (H : frame) (n : nat) : Prop :=
  exists bd bp, nth_error (lists_of m) n = Some bd /\ l_args bd = [Kshow last_plus] /\ l_parent bd = b_id bp /\ at_p H bp.
Definition mode (m : mstate) (H : frame) (c : ctx) (inside : bool) : Prop :=
  match cx_list c with None => inside = false | Some n => inside = true /\ in_list m H n end.
Lemma mode_grows : forall m m' H c inside, grows m m' -> mode m H c inside -> mode m' H c inside.
Proof.
  intros m m' H c inside G M. unfold mode in *. destruct (cx_list c) as [n|]; [|exact M]. destruct M as [M (bd & bp & N & A & P & T)].
  split; [exact M|]. destruct (gr_lists _ _ G _ _ N) as (b' & N' & E). exists b', bp. unfold same_but_level in E.
  split; [exact N'|]. split; [rewrite E; exact A|]. split; [rewrite E; exact P|exact T].
Qed.
Lemma mode_shift : forall m H c inside cs0 B0, mode m H c inside -> mode m (shift H cs0 B0) c inside.
Proof.
  intros m H c inside cs0 B0 M. unfold mode in *. destruct (cx_list c) as [n|]; [|exact M]. destruct M as [M (bd & bp & N & A & P & T)].
  split; [exact M|]. exists bd, bp. repeat (split; [assumption|]). now apply shift_p.
Qed.

(** What building a block (or several) achieves. *)
Definition built (H : frame) (m m' : mstate) (inside : bool) (here later : list mark) (ls : list lab) : Prop :=
  exists cs B, grows m m' /\ sl_box (slide_of m') = H cs B /\
    (forall n b, nth_error (lists_of m) n = Some b -> nth_error (lists_of m') n = Some b) /\
    (inside = false -> B = []) /\
    Forall2 (rel m' inside) (walks cs) here /\ Forall2 (rel m' false) (walks B) later /\ new_labels m m' ls.
Definition builds (f : mstate -> mstate * result unit) (inside : bool) (c : ctx) (here later : list mark) (ls : list lab) : Prop :=
  forall m H bx, good m -> at_x H bx -> cx_box c = b_id bx -> sl_box (slide_of m) = H [] [] -> mode m H c inside ->
  exists m', f m = (m', Ok tt) /\ built H m m' inside here later ls.

Lemma run_all_builds : forall A (f : A -> mstate -> mstate * result unit) inside c here later ls l,
  Forall (fun x => builds (f x) inside c (here x) (later x) (ls x)) l ->
  builds (run_all f l) inside c (flat_map here l) (flat_map later l) (flat_map ls l).
Proof.
  intros A f inside c here later ls l F. induction F as [|x l Fx F IH]; intros m H bx G X E T M.
  - exists m. split; [reflexivity|]. exists [], []. split; [now apply grows_refl|]. split; [exact T|]. split; [auto|].
    split; [auto|]. split; [constructor|]. split; [constructor|]. now apply new_labels_nil.
  - cbn [run_all flat_map]. destruct (Fx m H bx G X E T M) as (m1 & E1 & cs1 & B1 & G1 & T1 & L1 & I1 & R1 & S1 & N1). rewrite E1.
    destruct (IH m1 (shift H cs1 B1) bx (gr_good _ _ G1) (shift_x _ _ _ _ X) E) as (m2 & E2 & cs2 & B2 & G2 & T2 & L2 & I2 & R2 & S2 & N2).
    { unfold shift. now rewrite !app_nil_r. } { apply mode_shift. eapply mode_grows; eauto. }
    exists m2. split; [exact E2|]. exists (cs1 ++ cs2), (B1 ++ B2). split; [eapply grows_trans; eauto|]. split; [exact T2|].
    split; [auto|]. split; [intro Q; now rewrite I1, I2|]. rewrite !walks_app.
    split; [apply Forall2_app; [eapply rels_grows; eauto|exact R2]|].
    split; [apply Forall2_app; [eapply rels_grows; eauto|exact S2]|].
    eapply new_labels_trans; eauto.
Qed.

(** ** Texts *)
Lemma grows_with_slide : forall m x, good m -> wf x -> (sl_next (slide_of m) <= sl_next x)%nat -> sl_max x = sl_max (slide_of m) ->
  grows m (mkM (with_slide (m_state m) x) (m_texts m)).
Proof. intros m x G W N M. apply grows_step; auto. intros n b. apply keep_lists. Qed.
Lemma draws : forall c inside style ts ct, (exists t, ts = Ok t /\
    forall i texts, matches lexer_of (texts ++ [(i, style, t)]) i ct) ->
  builds (fun m => with_box m (sbox (m_state m) (cx_box c)) (fun container m => draw measure_text m container style ts))
    inside c [(inside, ct)] [] [].
Proof.
  intros c inside style ts ct (t & -> & MT) m H bx G X E T M. destruct (X []) as (C & K & HX).
  assert (W := proj1 G). rewrite HX, app_nil_r in T. rewrite E.
  destruct (sbox_ok (m_state m) C bx K W T) as (x1 & z1 & Q1 & W1 & T1 & X1 & Y1). rewrite Q1. cbn [with_box].
  set (q := mkBox _ always z1) in *. set (m1 := mkM (with_slide (m_state m) x1) (m_texts m)).
  assert (G1 : grows m m1) by (apply grows_with_slide; [exact G|exact W1|lia|exact Y1]).
  unfold draw. destruct (measure_text style t) as [w h].
  assert (T1' : sl_box (slide_of m1) = fill ((bx, K, []) :: C) (NBox q [])) by exact T1.
  destruct (text_ok (slide_of m1) _ q [] w h W1 T1') as (x2 & z2 & Q2 & W2 & T2 & X2 & Y2).
  change (sl_next (ls_slide (m_state m))) with (b_id q). rewrite Q2.
  set (m2 := mkM (with_slide (m_state m1) x2) (m_texts m1 ++ [(sl_next (slide_of m1), style, t)])).
  assert (G2 : grows m1 m2).
  { constructor.
    - split; [exact W2|]. intros i st ts' Hi. cbn in Hi. apply in_app_iff in Hi as [Hi|[Hi|[]]].
      + apply (proj2 (gr_good _ _ G1)) in Hi. cbn in *. lia.
      + injection Hi as <- _ _. cbn in *. lia.
    - cbn in *. lia.
    - exact Y2.
    - eexists. split; [reflexivity|]. intros i st ts' [Hi|[]]. injection Hi as <- _ _. apply le_n.
    - intros n b. apply keep_lists. }
  exists m2. split; [reflexivity|]. exists [NBox q [NItem (sl_next (slide_of m1)) z2]], [].
  split; [eapply grows_trans; eauto|]. split; [rewrite HX; exact T2|]. split; [auto|]. split; [auto|].
  split; [|split; [constructor|now apply new_labels_nil]].
  unfold walks. cbn [flat_map walk app]. constructor; [|constructor].
  exists (sl_next (slide_of m1)), z2. split; [reflexivity|]. split; [cbn in *; lia|]. split; [apply MT|].
  intros k Hk. cbn [fst visible_all forallb]. change (b_show q) with always. rewrite always_visible by exact Hk.
  replace (sl_max (slide_of m2)) with (sl_max (slide_of m)) by (cbn in *; congruence). destruct inside; [|reflexivity].
  now destruct (sl_max (slide_of m) <=? k).
Qed.

(** ** Lists *)
Lemma create_box_ok : forall s bd C bp K total, wf (ls_slide s) -> l_args bd = [Kshow last_plus] -> l_parent bd = b_id bp ->
  sl_box (ls_slide s) = fill C (NBox bp K) ->
  exists x z, create_box s bd total [] = (with_slide s x, Ok (sl_next (ls_slide s))) /\
    added (ls_slide s) x C bp K (from_on (sl_max (ls_slide s))) z.
Proof.
  intros s bd C bp K total W A P E. unfold create_box. rewrite P, A.
  assert (M1 : 1 <= sl_max (ls_slide s)) by apply W.
  eapply box_ok; [exact W|exact E|reflexivity|reflexivity|reflexivity|reflexivity|reflexivity|apply last_plus_ok|].
  rewrite from_on_max by lia. lia.
Qed.
Definition list_label (ordered : bool) (bullet : str) : label :=
  if ordered then arabic measure else match bullet with [] => ListModel.bullet | _ => LText bullet end.
(** The new list [n], below [bp]. *)
Definition fresh (m : mstate) (n : nat) (bp : bhead) (ordered : bool) (k : Z) (bullet : str) : Prop :=
  exists bd, nth_error (lists_of m) n = Some bd /\ l_args bd = [Kshow last_plus] /\ l_parent bd = b_id bp /\
    l_label bd = Some (list_label ordered bullet) /\ (ordered = true -> l_level bd = [k - 1]).
Lemma fresh_last : forall m x ll sh bp ordered start bullet indent padding level total,
  m = mkM (mkState x (ll ++ [new_builder (b_id bp) (Some (list_label ordered bullet)) indent padding level start total []]) sh) (m_texts m) ->
  (ordered = true -> level = None \/ level = Some []) -> fresh m (List.length ll) bp ordered start bullet.
Proof.
  intros m x ll sh bp ordered start bullet indent padding level total -> L. eexists. cbn [m_state ls_lists].
  split; [rewrite nth_error_app2, Nat.sub_diag by lia; reflexivity|]. repeat (split; [reflexivity|]).
  intro O. destruct (L O) as [-> | ->]; reflexivity.
Qed.
Lemma label_or_list : forall bullet, label_or (Some (LText bullet)) ListModel.bullet = Some (list_label false bullet).
Proof. intros [|c l]; reflexivity. Qed.

(** The items of one list. *)
Definition item_marks (item : list block) : list mark := (true, CLabel) :: flat_map (own true) item ++ flat_map lists item.
Definition run_item (n : nat) (bs : list block) (m : mstate) : mstate * result unit :=
  with_box m (item measure (m_state m) n None None []) (fun box m =>
    run_all (fun b => build b (mkCtx box (Some n))) bs m).
Lemma items_ok : forall n bp ordered bullet items,
  Forall (fun bs => Forall (fun b => forall c, builds (build b c) true c (own true b) (lists b) (labels b)) bs) items ->
  forall m k G its0, good m -> (exists C K, forall its, G its = fill C (NBox bp (K ++ its))) ->
    sl_box (slide_of m) = G its0 -> fresh m n bp ordered k bullet ->
  exists m' its, run_all (run_item n) items m = (m', Ok tt) /\ grows m m' /\ sl_box (slide_of m') = G (its0 ++ its) /\
    (forall j b, j <> n -> nth_error (lists_of m) j = Some b -> nth_error (lists_of m') j = Some b) /\
    Forall2 (rel m' false) (walks its) (flat_map item_marks items) /\
    new_labels m m' (numbered labels ordered k bullet items).
Proof.
  intros n bp ordered bullet items F. induction F as [|bs items Fb F IH]; intros m k G its0 Gm (C & K & EG) T (bd & N & A & P & L & V).
  - exists m, []. split; [reflexivity|]. split; [now apply grows_refl|]. rewrite app_nil_r. split; [exact T|]. split; [auto|].
    split; [constructor|]. now apply new_labels_nil.
  - cbn [run_all]. unfold run_item at 1. 
    assert (E : sl_box (slide_of m) = fill C (NBox bp (K ++ its0))) by now rewrite <- EG.
    assert (LL : l_label bd = Some (arabic measure) \/ exists t, l_label bd = Some (LText t)).
    { rewrite L. destruct ordered; cbn [list_label]; [left; reflexivity|]. destruct bullet; right; eexists; reflexivity. }
    destruct (item_ok measure esc Hesc (m_state m) n bd C bp (K ++ its0) (proj1 Gm) N A P E LL)
      as (x & it & lb & ct & li & lz & Q & W & Tx & Nx & Mx & S1 & S2 & S3 & Li).
    rewrite Q. cbn [with_box]. set (m1 := mkM _ (m_texts m)).
    assert (N1 : nth_error (lists_of m1) n = Some (set_level bd (bump (l_level bd)))).
    { cbn [m1 m_state ls_lists]. rewrite nth_set_nth. rewrite Nat.eqb_refl, N. reflexivity. }
    assert (K1 : forall j b, j <> n -> nth_error (lists_of m) j = Some b -> nth_error (lists_of m1) j = Some b).
    { intros j b D H. cbn [m1 m_state ls_lists]. rewrite nth_set_nth. destruct (Nat.eqb_spec n j); [congruence|]. exact H. }
    assert (G1 : grows m m1).
    { apply grows_step; auto. intros j b H. destruct (Nat.eq_dec j n) as [->|D].
      - exists (set_level bd (bump (l_level bd))). split; [exact N1|]. replace b with bd by congruence. reflexivity.
      - exists b. split; [exact (K1 j b D H)|apply same_but_level_refl]. }
    set (H := fun cs B => G (its0 ++ item_node it lb ct li lz cs :: B)).
    assert (HX : at_x H ct).
    { intro B. exists ((it, [NBox lb [NItem li lz]], []) :: (bp, K ++ its0, B) :: C), []. intro cs. unfold H. rewrite EG.
      cbn [fill app]. rewrite <- app_assoc. reflexivity. }
    assert (HP : at_p H bp).
    { intro cs. exists C, (K ++ its0 ++ [item_node it lb ct li lz cs]). intro B. unfold H. rewrite EG. rewrite <- !app_assoc. reflexivity. }
    assert (Fall : builds (run_all (fun b => build b (mkCtx (b_id ct) (Some n))) bs) true (mkCtx (b_id ct) (Some n))
              (flat_map (own true) bs) (flat_map lists bs) (flat_map labels bs)).
    { apply run_all_builds. eapply Forall_impl; [|exact Fb]. intros b Hb. apply Hb. }
    destruct (Fall m1 H ct (gr_good _ _ G1) HX eq_refl) as (m2 & E2 & cs & B & G2 & T2 & L2 & I2 & R2 & B2 & NL2).
    { cbn [m1 m_state ls_slide]. unfold H. rewrite EG, Tx. rewrite <- app_assoc. reflexivity. }
    { split; [reflexivity|]. exists (set_level bd (bump (l_level bd))), bp. split; [exact N1|]. split; [exact A|]. split; [exact P|exact HP]. }
    rewrite E2.
    destruct (IH m2 (k + 1) G (its0 ++ item_node it lb ct li lz cs :: B) (gr_good _ _ G2)) as (m3 & its & E3 & G3 & T3 & L3 & R3 & NL3).
    { exists C, K. exact EG. } { exact T2. }
    { exists (set_level bd (bump (l_level bd))). split; [apply L2; exact N1|]. split; [exact A|]. split; [exact P|]. split; [exact L|].
      intro O. cbn [l_level set_level]. rewrite (V O). cbn. f_equal. lia. }
    exists m3, (item_node it lb ct li lz cs :: B ++ its). split; [exact E3|].
    split; [eapply grows_trans; [exact G1|eapply grows_trans; [exact G2|exact G3]]|].
    split; [rewrite T3, <- app_assoc; reflexivity|].
    split; [intros j b D Hj; apply L3; [exact D|]; apply L2; now apply K1|].
    assert (M1 : sl_max (slide_of m3) = sl_max (slide_of m)). { rewrite (gr_max _ _ G3), (gr_max _ _ G2). exact Mx. }
    split.
    + cbn [flat_map]. unfold item_marks at 1.
      assert (EW : walks (item_node it lb ct li lz cs :: B ++ its) =
        ([it; lb], PItem li lz) :: map (fun x => (it :: fst x, snd x)) (map (fun x => (ct :: fst x, snd x)) (walks cs)) ++ walks B ++ walks its).
      { change (item_node it lb ct li lz cs :: B ++ its) with ([item_node it lb ct li lz cs] ++ B ++ its). rewrite !walks_app.
        unfold item_node, walks at 1. cbn [flat_map]. rewrite app_nil_r, walk_box.
        change [NBox lb [NItem li lz]; NBox ct cs] with ([NBox lb [NItem li lz]] ++ [NBox ct cs]). rewrite walks_app, map_app.
        unfold walks at 1 2. cbn [flat_map]. rewrite !app_nil_r, !walk_box. reflexivity. }
      rewrite EW. cbn [app]. constructor.
      * apply (rel_grows m1); [eapply grows_trans; eauto|]. exists li, lz. split; [reflexivity|]. split; [exact (proj2 Li)|].
        split. { intros st ts Hi. apply (proj2 Gm) in Hi. lia. }
        intros kk Hk. cbn [fst visible_all forallb]. rewrite S1, S2, from_on_visible, always_visible by exact Hk.
        cbn [m1 m_state ls_slide]. rewrite Mx, andb_true_r. reflexivity.
      * rewrite <- app_assoc. apply Forall2_app; [|apply Forall2_app; [eapply rels_grows; eauto|exact R3]].
        eapply rels_grows; [exact G3|]. apply rel_from; [rewrite (gr_max _ _ G2); cbn [m1 m_state ls_slide]; rewrite Mx; exact S1|].
        apply rel_always; [exact S3|exact R2].
    + cbn [numbered].
      change ((if ordered then Num k else Bul bullet) :: flat_map labels bs ++ numbered labels ordered (k + 1) bullet items)
        with ([if ordered then Num k else Bul bullet] ++ flat_map labels bs ++ numbered labels ordered (k + 1) bullet items).
      apply (new_labels_trans m m1 m3); [eapply grows_trans; eauto| |eapply new_labels_trans; eauto].
      exists [(n, bump (l_level bd))]. split; [reflexivity|]. constructor; [|constructor].
      exists (set_level bd (bump (l_level bd))). split; [exact N1|]. cbn [snd set_level l_label]. rewrite L.
      destruct ordered; cbn [list_label]; [|reflexivity]. split; [|reflexivity]. rewrite (V eq_refl). cbn. f_equal. lia.
Qed.

(** ** Blocks *)
Definition here (inside : bool) (b : block) : list mark := if inside then own true b else placed b.
Definition later (inside : bool) (b : block) : list mark := if inside then lists b else [].
Lemma later_nil : forall l, flat_map (later false) l = [].
Proof. induction l; auto. Qed.

Lemma text_builds : forall c inside style l, all (ok_inline esc false) l ->
  builds (build_text measure_text [esc] c (get_raw_text [esc] l) style) inside c [(inside, CText style (inlines_events l))] [] [].
Proof.
  intros c inside style l H. unfold build_text. apply draws. destruct (inline_text esc l Hesc H) as (ts & E & B & V).
  exists ts. split; [exact E|]. intros i texts. exists ts. split; [apply in_or_app; right; now left|]. auto.
Qed.
Lemma code_builds : forall c inside lang text, lang = [] \/ lexer_of lang <> None ->
  builds (build_code measure_text lexer_of c lang text) inside c [(inside, CCode lang text)] [] [].
Proof.
  intros c inside lang text H. unfold build_code. apply draws. destruct lang as [|a lang'].
  - destruct (C32_code_plain None text 4 false (pys "~") 126%N 123%N 125%N eq_refl) as (ts & E & B & _ & _ & P).
    exists ts. split; [exact E|]. intros i texts. exists ts. split; [apply in_or_app; right; now left|]. split; [exact B|exact P].
  - set (lang := a :: lang') in *. destruct (lexer_of lang) as [lex|] eqn:L; [|destruct H as [H|H]; [discriminate|now contradiction H]].
    destruct (C32_code_plain (Some lex) text 4 false (pys "~") 126%N 123%N 125%N eq_refl) as (ts & E & B & _ & _ & k & P).
    exists ts. split; [exact E|]. intros i texts. exists ts. split; [apply in_or_app; right; now left|]. split; [exact B|].
    cbn [lang]. exists lex, k. split; [exact L|exact P].
Qed.

Lemma build_ok : forall b inside c, ok_block lexer_of esc inside b ->
  builds (build b c) inside c (here inside b) (later inside b) (labels b).
Proof.
  induction b as [k l|l| |bs IH|lang t|o s u items IH|] using block_ind2; intros inside c O; cbn [ok_block] in O.
  - destruct O as [Hk O]. cbn [build labels]. assert (Eh : md_heading k = Ok (pys "md-h" ++ [Z.to_N (48 + k)])).
    { assert (k = 1 \/ k = 2 \/ k = 3 \/ k = 4 \/ k = 5 \/ k = 6) as D by lia.
      destruct D as [->|[->|[->|[->|[->| ->]]]]]; reflexivity. }
    rewrite Eh. destruct inside; apply text_builds; exact O.
  - destruct inside; apply text_builds; exact O.
  - assert (O' : all (ok_inline esc false) [IBreak]) by (split; [exact O|exact I]).
    destruct inside; apply (text_builds c _ md_paragraph [IBreak] O').
  - (* quote *)
    intros m H bx G X E T M. cbn [build]. destruct (X []) as (C & K & HX). assert (W := proj1 G). rewrite HX, app_nil_r in T. rewrite E.
    destruct (sbox_ok (m_state m) C bx K W T) as (x1 & z1 & Q1 & W1 & T1 & X1 & Y1). rewrite Q1. cbn [with_box].
    set (q := mkBox _ always z1) in *. set (m1 := mkM (with_slide (m_state m) x1) (m_texts m)).
    assert (G1 : grows m m1) by (apply grows_with_slide; [exact G|exact W1|lia|exact Y1]).
    set (H' := fun cs B => H [NBox q cs] B).
    assert (FA : builds (run_all (fun b => build b (mkCtx (b_id q) (cx_list c))) bs) inside (mkCtx (b_id q) (cx_list c))
               (flat_map (here inside) bs) (flat_map (later inside) bs) (flat_map labels bs)).
    { apply run_all_builds. apply all_Forall in O. rewrite Forall_forall in *. intros b Hb. apply (IH b Hb). now apply O. }
    destruct (FA m1 H' q (gr_good _ _ G1)) as (m2 & E2 & cs & B & G2 & T2 & L2 & I2 & R2 & S2 & NL2).
    { intro B. destruct (X B) as (C' & K' & HX'). exists ((bx, K', []) :: C'), []. intro cs. unfold H'. rewrite HX'. reflexivity. }
    { reflexivity. } { unfold H'. rewrite HX. exact T1. }
    { eapply mode_grows; [exact G1|]. unfold mode in *. cbn [cx_list]. destruct (cx_list c) as [n|]; [|exact M].
      destruct M as [M (bd & bp & N & A & P & HP)]. split; [exact M|]. exists bd, bp. repeat (split; [assumption|]).
      intro cs. apply (HP [NBox q cs]). }
    exists m2. split; [exact E2|]. exists [NBox q cs], B. split; [eapply grows_trans; eauto|]. split; [exact T2|].
    split; [intros n b Hn; apply L2; exact Hn|]. split; [exact I2|].
    assert (EH : here inside (BQuote bs) = flat_map (here inside) bs) by (destruct inside; reflexivity).
    assert (EL : later inside (BQuote bs) = flat_map (later inside) bs) by (destruct inside; [reflexivity|symmetry; apply later_nil]).
    rewrite EH, EL. split; [|split; [exact S2|]].
    + unfold walks at 1. cbn [flat_map]. rewrite app_nil_r, walk_box. apply rel_always; [reflexivity|exact R2].
    + destruct NL2 as (new & EN & FN). exists new. split; [exact EN|exact FN].
  - destruct inside; apply code_builds; exact O.
  - (* list *)
    destruct O as [OS OI]. intros m H bx G X E T M. cbn [build]. destruct (X []) as (C & K & HX). assert (W := proj1 G). rewrite HX, app_nil_r in T. rewrite E.
    destruct (sbox_ok (m_state m) C bx K W T) as (x1 & z1 & Q1 & W1 & T1 & X1 & Y1). rewrite Q1. cbn [with_box].
    set (q1 := mkBox _ always z1) in *. set (m1 := mkM (with_slide (m_state m) x1) (m_texts m)).
    change (sl_next (slide_of m)) with (b_id q1).
    assert (G1 : grows m m1) by (apply grows_with_slide; [exact G|exact W1|lia|exact Y1]).
    assert (FI : Forall (fun bs => Forall (fun b => forall c, builds (build b c) true c (own true b) (lists b) (labels b)) bs) items).
    { apply all_Forall in OI. rewrite Forall_forall in *. intros bs Hbs. specialize (IH bs Hbs). specialize (OI bs Hbs).
      apply all_Forall in OI. rewrite Forall_forall in *. intros b Hb c'. apply (IH b Hb true c'). now apply OI. }
    assert (EL : forall l, flat_map item_marks l =
        flat_map (fun item => (true, CLabel) :: flat_map (own true) item ++ flat_map lists item) l) by reflexivity.
    unfold mode in M. destruct (cx_list c) as [n0|] eqn:CL.
    + (* nested *)
      destruct M as [-> (bd & bp & N & A & P & HP)]. destruct (HP [NBox q1 []]) as (C2 & K2 & HP2).
      assert (T1' : sl_box (slide_of m1) = fill C2 (NBox bp K2)).
      { rewrite <- (app_nil_r K2), <- HP2, HX. exact T1. }
      assert (NL : exists x2 z2 n, new_list measure c (b_id q1) o s u (m_state m1) =
          (mkState x2 (lists_of m1 ++ [n]) (ls_shown (m_state m1)), Ok (List.length (lists_of m1))) /\
          added (slide_of m1) x2 C2 bp K2 (from_on (sl_max (slide_of m1))) z2 /\
          exists indent padding level start total, n = new_builder (sl_next (slide_of m1)) (Some (list_label o u)) indent padding level start total [Kshow last_plus] /\
            (o = true -> level = Some [] /\ start = s)).
      { unfold new_list. rewrite CL. destruct o.
        - unfold sublist. change (lists_of m1) with (lists_of m). rewrite N.
          destruct (Z.ltb_spec s 1) as [Hs|Hs]; [specialize (OS eq_refl eq_refl); lia|].
          destruct (create_box_ok (m_state m1) bd C2 bp K2 (l_total bd + l_indent bd)%Q W1 A P T1') as (x2 & z2 & Q2 & AD).
          rewrite Q2. exists x2, z2. eexists. split; [reflexivity|]. split; [exact AD|].
          eexists _, _, _, _, _. split; [rewrite A; reflexivity|]. auto.
        - unfold sublist. change (lists_of m1) with (lists_of m). rewrite N. cbn [Z.ltb Z.compare].
          destruct (create_box_ok (m_state m1) bd C2 bp K2 (l_total bd + l_indent bd)%Q W1 A P T1') as (x2 & z2 & Q2 & AD).
          change (1 <? 1) with false. cbv iota. rewrite Q2. exists x2, z2. eexists. split; [reflexivity|]. split; [exact AD|].
          eexists _, _, _, _, _. split; [rewrite A, label_or_list; reflexivity|]. discriminate. }
      destruct NL as (x2 & z2 & nb & EN & (W2 & T2 & X2 & Y2) & indent & padding & level & start & total & EB & LV).
      change (m_state (mkM (with_slide (m_state m) x1) (m_texts m))) with (m_state m1). rewrite EN. cbn [with_box].
      set (q2 := mkBox _ (from_on _) z2) in *. set (m2 := mkM _ (m_texts m1)).
      assert (G2 : grows m1 m2). { apply grows_step; [exact (gr_good _ _ G1)|exact W2|lia|exact Y2|]. intros n b. apply add_list. }
      destruct (items_ok (List.length (lists_of m1)) q2 o u items FI m2 s (fun its => H [NBox q1 []] [NBox q2 its]) [] (gr_good _ _ G2))
        as (m3 & its & E3 & G3 & T3 & L3 & R3 & NL3).
      { exists ((bp, K2, []) :: C2), []. intro its. rewrite HP2. reflexivity. }
      { rewrite HP2. exact T2. }
      { exists nb. split; [unfold m2; cbn [m_state ls_lists]; rewrite nth_error_app2, Nat.sub_diag by lia; reflexivity|]. subst nb.
        repeat (split; [reflexivity|]). intro Ho. destruct (LV Ho) as [-> ->]. reflexivity. }
      exists m3. split; [exact E3|]. exists [NBox q1 []], [NBox q2 its].
      split; [eapply grows_trans; [exact G1|eapply grows_trans; [exact G2|exact G3]]|]. split; [exact T3|].
      split. { intros n b Hn. apply L3; [apply nth_error_Some_lt in Hn; change (lists_of m1) with (lists_of m); lia|].
        unfold m2. cbn [m_state ls_lists]. rewrite nth_error_app1; [exact Hn|]. now apply nth_error_Some_lt in Hn. }
      split; [discriminate|]. split; [constructor|]. split.
      * unfold walks at 1. cbn [flat_map]. rewrite app_nil_r, walk_box. apply rel_from; [rewrite (gr_max _ _ G3); unfold m2; cbn [m_state ls_slide]; rewrite Y2; reflexivity|].
        apply rel_base; [intros mk Hmk; apply (lists_inside (BList o s u items)); exact Hmk|exact R3].
      * destruct NL3 as (new & EN3 & FN). exists new. split; [exact EN3|exact FN].
    + (* at top *)
      subst inside.
      assert (T1' : sl_box (slide_of m1) = fill ((bx, K, []) :: C) (NBox q1 [])) by exact T1.
      destruct (sbox_ok (m_state m1) _ q1 [] W1 T1') as (x2 & z2 & Q2 & W2 & T2 & X2 & Y2).
      set (q2 := mkBox _ always z2) in *.
      assert (NL : exists n, new_list measure c (b_id q1) o s u (m_state m1) =
          (mkState x2 (lists_of m1 ++ [n]) (ls_shown (m_state m1)), Ok (List.length (lists_of m1))) /\
          exists indent padding level start total, n = new_builder (b_id q2) (Some (list_label o u)) indent padding level start total [] /\
            (o = true -> level = None /\ start = s)).
      { unfold new_list. rewrite CL. destruct o; unfold top_list; rewrite Q2; eexists; (split; [reflexivity|]).
        - eexists _, _, _, _, _. split; [reflexivity|]. auto.
        - eexists _, _, _, _, _. split; [rewrite label_or_list; reflexivity|]. discriminate. }
      destruct NL as (nb & EN & indent & padding & level & start & total & EB & LV).
      change (m_state (mkM (with_slide (m_state m) x1) (m_texts m))) with (m_state m1). rewrite EN. cbn [with_box].
      set (m2 := mkM _ (m_texts m1)).
      assert (G2 : grows m1 m2). { apply grows_step; [exact (gr_good _ _ G1)|exact W2|lia|exact Y2|]. intros n b. apply add_list. }
      destruct (items_ok (List.length (lists_of m1)) q2 o u items FI m2 s (fun its => H [NBox q1 [NBox q2 its]] []) [] (gr_good _ _ G2))
        as (m3 & its & E3 & G3 & T3 & L3 & R3 & NL3).
      { exists ((q1, [], []) :: (bx, K, []) :: C), []. intro its. rewrite HX. reflexivity. }
      { rewrite HX. exact T2. }
      { exists nb. split; [unfold m2; cbn [m_state ls_lists]; rewrite nth_error_app2, Nat.sub_diag by lia; reflexivity|]. subst nb.
        repeat (split; [reflexivity|]). intro Ho. destruct (LV Ho) as [-> ->]. reflexivity. }
      exists m3. split; [exact E3|]. exists [NBox q1 [NBox q2 its]], [].
      split; [eapply grows_trans; [exact G1|eapply grows_trans; [exact G2|exact G3]]|]. split; [exact T3|].
      split. { intros n b Hn. apply L3; [apply nth_error_Some_lt in Hn; change (lists_of m1) with (lists_of m); lia|].
        unfold m2. cbn [m_state ls_lists]. rewrite nth_error_app1; [exact Hn|]. now apply nth_error_Some_lt in Hn. }
      split; [reflexivity|]. split; [|split; [constructor|]].
      * unfold walks at 1. cbn [flat_map]. rewrite app_nil_r, walk_box. apply rel_always; [reflexivity|].
        unfold walks. cbn [flat_map]. rewrite app_nil_r, walk_box. apply rel_always; [reflexivity|exact R3].
      * destruct NL3 as (new & EN3 & FN). exists new. split; [exact EN3|exact FN].
  - intros m H bx G X E T M. exists m. split; [reflexivity|]. exists [], []. split; [now apply grows_refl|]. split; [exact T|].
    split; [auto|]. split; [auto|]. destruct inside; (split; [constructor|]; split; [constructor|]; now apply new_labels_nil).
Qed.
End Doc.
