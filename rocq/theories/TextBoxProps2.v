(** Properties C33-C35, continued: alignment, arguments of line and inline boxes, UTF-8. *)
From Coq Require Import List ZArith NArith QArith Bool String Lia Lqa.
From Verif Require Import Py PyFacts StyleModel ShowModel LayoutModel SlideModel TextModel TextBoxModel
  TextBoxSpec TextBoxProps DrawModel.
Import ListNotations.
Local Open Scope Q_scope.

(** ** C33: horizontal alignment *)

(** Where SVG shows a text of width [w] at [x] with a text-anchor. *)
Definition shown_between (anchor : str) (x w : Q) (a b : Q) : Prop :=
  (anchor = pys "start" /\ a == x /\ b == x + w) \/
  (anchor = pys "middle" /\ a == x - w / 2 /\ b == x + w / 2) \/
  (anchor = pys "end" /\ a == x - w /\ b == x).

(** A text is drawn iff its alignment is left, middle or right, and then it touches the left side of
    the box, has the same middle as the box, or touches its right side. *)
Theorem C33_aligned : forall r align,
  match align with
  | PStr s => s = pys "left" \/ s = pys "middle" \/ s = pys "right"
  | _ => False
  end ->
  exists s x t, align = PStr s /\ text_x_in_rect r (Some s) = Ok x /\ anchor align = Ok t /\
    forall w, exists a b, shown_between t x w a b /\ b - a == w /\
      (s = pys "left" -> a == rx r) /\ (s = pys "right" -> b == rx r + rw r) /\
      (s = pys "middle" -> a - rx r == rx r + rw r - b).
Proof.
  intros r align H. destruct align as [|s|q|b|o]; try tauto.
  destruct H as [-> | [-> | ->]]; do 3 eexists; (split; [reflexivity|]; split; [reflexivity|]; split; [reflexivity|]); intro w.
  - exists (rx r), (rx r + w). split; [left; split; [reflexivity|split; reflexivity]|].
    split; [ring|]. split; [intro; reflexivity|]. split; intro X; discriminate X.
  - exists (rx r + rw r / 2 - w / 2), (rx r + rw r / 2 + w / 2).
    split; [right; left; split; [reflexivity|split; reflexivity]|].
    split; [field|]. split; [intro X; discriminate X|]. split; [intro X; discriminate X|]. intro; field.
  - exists (rx r + rw r - w), (rx r + rw r). split; [right; right; split; [reflexivity|split; reflexivity]|].
    split; [ring|]. split; [intro X; discriminate X|]. split; [intro; reflexivity|]. intro X; discriminate X.
Qed.
Print Assumptions C33_aligned.
Theorem C33_bad_alignment : forall it S a, ti_align it = a ->
  (forall s, a = Some s -> s <> pys "left" /\ s <> pys "middle" /\ s <> pys "right") ->
  exists e, render_text it S = Err e.
Proof.
  intros it S a Ha H. unfold render_text. rewrite Ha. destruct (st_rect S (ti_box it)) as [r|]; [|eauto].
  destruct a as [s|]; [|cbn; eauto]. destruct (H s eq_refl) as (N1 & N2 & N3). unfold text_x_in_rect.
  destruct (str_eqb s (pys "left")) eqn:E1; [apply str_eqb_eq in E1; contradiction|].
  destruct (str_eqb s (pys "middle")) eqn:E2; [apply str_eqb_eq in E2; contradiction|].
  destruct (str_eqb s (pys "right")) eqn:E3; [apply str_eqb_eq in E3; contradiction|]. cbn. eauto.
Qed.
Print Assumptions C33_bad_alignment.
Example ex_C33_aligned : text_x_in_rect (mkRect 10 0 40 20) (Some (pys "middle")) = Ok (10 + 40 / 2) /\
  shown_between (pys "middle") (10 + 40 / 2) 20 20 40 /\
  render_text (mkItem 2 1 [] (Some (pys "center")) 10 1 false)
    (mkStore (fun _ => Some (mkRect 10 0 40 20)) (fun _ => mkText 5 5 1)) = Err EException.
Proof.
  split; [reflexivity|]. split; [|reflexivity]. right. left. split; [reflexivity|]. split; reflexivity.
Qed.

(** ** C33, C34: the arguments *)

(** [a] are the arguments [kw], completed. *)
Definition completed (kw : box_kwargs) (a : box_args) : Prop :=
  let l := ba_layout (kw_rest kw) in let m := ba_layout a in
  (forall v, kw_x kw = Some v -> a_x m = v) /\ (forall v, kw_y kw = Some v -> a_y m = v) /\
  (forall v, kw_width kw = Some v -> a_width m = v) /\ (forall v, kw_height kw = Some v -> a_height m = v) /\
  a_left m = a_left l /\ a_right m = a_right l /\ a_top m = a_top l /\ a_bottom m = a_bottom l /\
  a_px m = a_px l /\ a_py m = a_py l /\ a_padding m = a_padding l /\ a_horizontal m = a_horizontal l /\
  ba_show a = ba_show (kw_rest kw) /\ ba_z a = ba_z (kw_rest kw) /\ ba_prepend a = ba_prepend (kw_rest kw) /\
  ba_above a = ba_above (kw_rest kw) /\ ba_below a = ba_below (kw_rest kw).
Lemma fill_completed : forall kw x y w h, completed kw (fill_defaults kw x y w h).
Proof.
  intros [kx ky kw kh rest] x y w h. unfold completed, fill_defaults. cbn.
  repeat split; try (intros v E; rewrite E; reflexivity).
Qed.

(** line_box and inline_box create a box in the box of the text, with all arguments that are given. *)
Theorem C33_line_box_call : forall s it i n kw, exists a,
  line_box s it i n kw = box_call s (ti_box it) a /\ completed kw a.
Proof. intros. eexists. split; [reflexivity|]. apply fill_completed. Qed.
Print Assumptions C33_line_box_call.
Theorem C34_inline_box_call : forall qx qw s it name n kw,
  (exists e, inline_box qx qw s it name n kw = (s, Err e)) \/
  exists a, inline_box qx qw s it name n kw = box_call s (ti_box it) a /\ completed kw a.
Proof.
  intros. unfold inline_box. destruct (inline_index it name n) as [i|e]; [|eauto].
  destruct (text_box_args qx qw it i kw) as [a|e] eqn:E; [|eauto]. right. exists a. split; [reflexivity|].
  unfold text_box_args in E. destruct (extract_line (ti_tokens it) i) as [li|]; [|discriminate].
  cbn [rbind] in E. destruct (qx (fst li) (snd li)) as [x|]; [|discriminate]. cbn [rbind] in E.
  destruct (qw (fst li) (snd li)) as [w|]; [|discriminate]. cbn [rbind] in E. injection E as <-.
  apply fill_completed.
Qed.
Print Assumptions C34_inline_box_call.
(** A line box with its own width and a z-level, in the slide of [ex_C33]. *)
Example ex_C33_call :
  let kw := mkKw None None (Some (ANum 7)) None
    (mkBArgs (mkLArgs ANone ANone ANone ANone None None None None None None None false)
       ShowNone (Some 5%Z) false None None) in
  exists S r, prepare (sl_layout (fst (line_box demo_slide demo_item 0 2 kw))) 200 100
      (sl_store (fst (line_box demo_slide demo_item 0 2 kw))) = Ok S /\
    snd (line_box demo_slide demo_item 0 2 kw) = Ok 5%nat /\
    st_rect S 5%nat = Some r /\ rw r == 7 /\ rh r == 41 /\ ry r == 20.
Proof.
  cbv zeta. do 2 eexists. split; [vm_compute; reflexivity|]. split; [vm_compute; reflexivity|].
  split; [vm_compute; reflexivity|]. split; [vm_compute; reflexivity|].
  split; vm_compute; reflexivity.
Qed.

(** ** C35: UTF-8 *)

(** The table of RFC 3629: the bits of the code point, in groups of six. *)
Inductive encoded : char -> list N -> Prop :=
| one_byte : forall a, (a < 128 -> encoded a [a])%N
| two_bytes : forall a b, (2 <= a < 32 -> b < 64 -> encoded (64 * a + b) [192 + a; 128 + b])%N
| three_bytes : forall a b c, (a < 16 -> b < 64 -> c < 64 -> 2048 <= 4096 * a + 64 * b + c ->
    ~ (55296 <= 4096 * a + 64 * b + c <= 57343) ->
    encoded (4096 * a + 64 * b + c) [224 + a; 128 + b; 128 + c])%N
| four_bytes : forall a b c d, (a < 8 -> b < 64 -> c < 64 -> d < 64 ->
    65536 <= 262144 * a + 4096 * b + 64 * c + d -> 262144 * a + 4096 * b + 64 * c + d <= 1114111 ->
    encoded (262144 * a + 4096 * b + 64 * c + d) [240 + a; 128 + b; 128 + c; 128 + d])%N.

Lemma div_digit : forall k a b, (b < k -> (k * a + b) / k = a /\ (k * a + b) mod k = b)%N.
Proof.
  intros k a b H. assert (K : (k <> 0)%N) by lia. split.
  - symmetry. apply (N.div_unique _ k a b); auto.
  - symmetry. apply (N.mod_unique _ k a b); auto.
Qed.
Theorem C35_utf8 : forall c bs, (c <= 1114111)%N -> utf8_char c = Ok bs <-> encoded c bs.
Proof.
  intros c bs Hc. split.
  - unfold utf8_char. assert (D := N.div_mod c 64 ltac:(lia)). assert (M := N.mod_lt c 64 ltac:(lia)).
    destruct (N.ltb_spec c 128) as [H1|H1].
    { intro E. injection E as <-. now constructor. }
    destruct (N.ltb_spec c 2048) as [H2|H2].
    { intro E. injection E as <-. rewrite D at 1. apply two_bytes; [|exact M]. clear - D M H1 H2.
      revert D M H1 H2. generalize (c / 64)%N (c mod 64)%N. intros n m -> ? ? ?. lia. }
    assert (D2 := N.div_mod (c / 64) 64 ltac:(lia)). assert (M2 := N.mod_lt (c / 64) 64 ltac:(lia)).
    rewrite N.div_div in D2 by lia. change (64 * 64)%N with 4096%N in D2.
    assert (D3 := N.div_mod (c / 4096) 64 ltac:(lia)). assert (M3 := N.mod_lt (c / 4096) 64 ltac:(lia)).
    rewrite N.div_div in D3 by lia. change (4096 * 64)%N with 262144%N in D3.
    set (m1 := (c mod 64)%N) in *. set (m2 := ((c / 64) mod 64)%N) in *. set (m3 := ((c / 4096) mod 64)%N) in *.
    set (q1 := (c / 64)%N) in *. set (q2 := (c / 4096)%N) in *. set (q3 := (c / 262144)%N) in *.
    clearbody m1 m2 m3 q1 q2 q3.
    destruct (N.ltb_spec c 65536) as [H3|H3].
    + assert (EC : (c = 4096 * q2 + 64 * m2 + m1)%N) by lia.
      destruct (N.leb_spec 55296 c) as [H4|H4]; [destruct (N.leb_spec c 57343) as [H5|H5]|]; cbn [andb];
        intro E; try discriminate; injection E as <-;
        rewrite EC; apply three_bytes; try assumption; lia.
    + intro E. injection E as <-.
      assert (EC : (c = 262144 * q3 + 4096 * m3 + 64 * m2 + m1)%N) by lia.
      rewrite EC. apply four_bytes; try assumption; lia.
  - intro E. inversion E as [a Ha|a b Ha Hb|a b d Ha Hb Hd H1 H2|a b d e Ha Hb Hd He H1 H2]; subst; unfold utf8_char.
    + destruct (N.ltb_spec c 128); [reflexivity|lia].
    + destruct (N.ltb_spec (64 * a + b) 128); [lia|]. destruct (N.ltb_spec (64 * a + b) 2048); [|lia].
      destruct (div_digit 64 a b Hb) as [-> ->]. reflexivity.
    + set (x := (4096 * a + 64 * b + d)%N) in *.
      assert (E1 : (x = 64 * (64 * a + b) + d)%N) by (unfold x; lia).
      assert (E2 : (x = 4096 * a + (64 * b + d))%N) by (unfold x; lia).
      destruct (N.ltb_spec x 128); [lia|]. destruct (N.ltb_spec x 2048); [lia|].
      destruct (N.ltb_spec x 65536); [|lia].
      assert (F : ((55296 <=? x) && (x <=? 57343))%N = false).
      { destruct (N.leb_spec 55296 x); [destruct (N.leb_spec x 57343); [lia|]|]; reflexivity. }
      rewrite F. assert (F1 : (x / 64 = 64 * a + b /\ x mod 64 = d)%N) by (rewrite E1; now apply div_digit).
      assert (F2 : (x / 4096 = a)%N) by (rewrite E2; apply div_digit; lia).
      destruct F1 as [F1 F3]. rewrite F1, F2, F3. now rewrite (proj2 (div_digit 64 a b Hb)).
    + set (x := (262144 * a + 4096 * b + 64 * d + e)%N) in *.
      assert (E1 : (x = 64 * (4096 * a + 64 * b + d) + e)%N) by (unfold x; lia).
      assert (E2 : (x = 4096 * (64 * a + b) + (64 * d + e))%N) by (unfold x; lia).
      assert (E3 : (x = 262144 * a + (4096 * b + 64 * d + e))%N) by (unfold x; lia).
      assert (E4 : (4096 * a + 64 * b + d = 64 * (64 * a + b) + d)%N) by lia.
      destruct (N.ltb_spec x 128); [lia|]. destruct (N.ltb_spec x 2048); [lia|].
      destruct (N.ltb_spec x 65536); [lia|].
      assert (F1 : (x / 64 = 4096 * a + 64 * b + d /\ x mod 64 = e)%N) by (rewrite E1; now apply div_digit).
      assert (F2 : (x / 4096 = 64 * a + b)%N) by (rewrite E2; apply div_digit; lia).
      assert (F3 : (x / 262144 = a)%N) by (rewrite E3; apply div_digit; lia).
      destruct F1 as [F1 F4]. rewrite F1, F2, F3, F4, E4.
      rewrite (proj2 (div_digit 64 (64 * a + b) d Hd)), (proj2 (div_digit 64 a b Hb)). reflexivity.
Qed.
Print Assumptions C35_utf8.
Example ex_C35_utf8 : utf8 [233; 8364; 128512]%N = Ok [195; 169; 226; 130; 172; 240; 159; 152; 128]%N /\
  utf8_char 55296 = Err EValue.
Proof. split; reflexivity. Qed.
