(** Properties of texts: delimiters (C25) and the order of merged blocks (C30). *)
From Coq Require Import List ZArith NArith Bool Arith String Lia.
From Verif Require Import Py PyFacts TextModel TextSpec TextProofs TextMerge TextOrder TextProps.
Import ListNotations.
Open Scope nat_scope.

(** ** C25: which escape strings are accepted *)

(** One character: that escape character with braces; three characters: the escape character and
    the two delimiters; anything else is refused, by text() and by code(), for every text. *)
Theorem C25_delimiters : forall s esc,
  (forall x, esc = [x] -> text_tokens s esc = parse_text s (Some x) lbr rbr) /\
  (forall x y z, esc = [x; y; z] -> text_tokens s esc = parse_text s (Some x) y z) /\
  (List.length esc <> 1 -> List.length esc <> 3 -> text_tokens s esc = Err EException /\
     forall lexer tabsize numbers styles, code_tokens lexer s tabsize numbers styles esc = Err EException).
Proof.
  intros s esc. split; [now intros x ->|]. split; [now intros x y z ->|]. intros H1 H3.
  destruct esc as [|x [|y [|z [|u esc]]]]; cbn in H1, H3; try lia; split; reflexivity.
Qed.
Print Assumptions C25_delimiters.

(** So documents written with the given delimiters are parsed back. *)
Theorem C25_written_back : forall x y z ds, x <> z -> valids x y z false ds ->
  exists ts, text_tokens (prints x y z ds) [x; y; z] = Ok ts /\ balanced ts /\
    without_trailing break (docs_events [] ds) (events [] ts).
Proof. intros. now apply C24_inline_styles. Qed.
Print Assumptions C25_written_back.

Example ex_C25_delimiters :
  text_tokens (pys "a#b[c]d{}") (pys "#[]") =
    Ok [TText (pys "a"); TBegin (pys "b"); TText (pys "c"); TEnd; TText (pys "d{}")] /\
  text_tokens (pys "a#b{c}d[]") (pys "#") =
    Ok [TText (pys "a"); TBegin (pys "b"); TText (pys "c"); TEnd; TText (pys "d[]")] /\
  text_tokens (pys "a") (pys "#[") = Err EException /\ text_tokens (pys "a") [] = Err EException.
Proof. repeat split. Qed.

(** ** C30: the end of a block *)
Lemma block_end_iff : forall ts c off j,
  block_end_from c off ts = Some j <->
  exists b r, ts = b ++ TEnd :: r /\ nest c b = Some 0 /\ j = off + List.length b.
Proof.
  induction ts as [|t ts IH]; intros c off j.
  - split; [discriminate|]. intros (b & r & E & _). destruct b; discriminate.
  - assert (G : forall c', (forall b, nest c (t :: b) = nest c' b) ->
      (exists b r, ts = b ++ TEnd :: r /\ nest c' b = Some 0 /\ j = S off + List.length b) <->
      (exists b r, t :: ts = b ++ TEnd :: r /\ b <> [] /\ nest c b = Some 0 /\ j = off + List.length b)).
    { intros c' N. split.
      - intros (b & r & -> & E & ->). exists (t :: b), r. rewrite N. repeat split; auto; [discriminate|]. cbn. lia.
      - intros (b & r & E & Hb & E' & ->). destruct b as [|t' b]; [congruence|]. cbn in E.
        injection E as <- ->. exists b, r. rewrite <- N. repeat split; auto. cbn. lia. }
    assert (D : (exists b r, t :: ts = b ++ TEnd :: r /\ nest c b = Some 0 /\ j = off + List.length b) <->
      (t = TEnd /\ c = 0 /\ j = off) \/
      (exists b r, t :: ts = b ++ TEnd :: r /\ b <> [] /\ nest c b = Some 0 /\ j = off + List.length b)).
    { split.
      - intros (b & r & E & N & ->). destruct b as [|u b].
        + left. cbn in E, N. injection E as -> _. injection N as ->. repeat split. cbn. lia.
        + right. exists (u :: b), r. repeat split; auto. discriminate.
      - intros [(-> & -> & ->)|(b & r & E & _ & N)]; [|exists b, r; tauto].
        exists [], ts. repeat split. cbn. lia. }
    rewrite D. destruct t as [s|n|s|]; cbn [block_end_from].
    + rewrite IH, (G c) by reflexivity. split; [auto|]. intros [(? & _)|?]; [discriminate|auto].
    + rewrite IH, (G c) by reflexivity. split; [auto|]. intros [(? & _)|?]; [discriminate|auto].
    + rewrite IH, (G (S c)) by reflexivity. split; [auto|]. intros [(? & _)|?]; [discriminate|auto].
    + destruct c as [|c].
      * split.
        -- intro E. injection E as <-. left. auto.
        -- intros [(_ & _ & ->)|(b & r & E & Hb & N & ->)]; [reflexivity|].
           destruct b as [|u b]; [congruence|]. cbn in E. injection E as <- _. discriminate.
      * rewrite IH, (G c) by reflexivity. split; [auto|]. intros [(_ & ? & _)|?]; [discriminate|auto].
Qed.

(** The index found is the one of the end that belongs to the begin at the given index: the tokens
    in between are balanced; nothing is found exactly if there is no such end. *)
Theorem C30_block_end : forall a s ts,
  exists r, get_block_end_index (a ++ TBegin s :: ts) (List.length a) = Ok r /\
    forall j, r = Some j <->
      exists b c, ts = b ++ TEnd :: c /\ balanced b /\ j = List.length a + 1 + List.length b.
Proof.
  intros a s ts. unfold get_block_end_index. rewrite nth_error_app2, Nat.sub_diag by lia. cbn [nth_error].
  eexists. split; [reflexivity|]. intro j.
  replace (skipn (S (List.length a)) (a ++ TBegin s :: ts)) with ts.
  - rewrite block_end_iff. unfold balanced.
    split; intros (b & c & E & N & ->); exists b, c; repeat split; auto; lia.
  - rewrite skipn_app, skipn_all2 by lia. replace (S (List.length a) - List.length a) with 1 by lia. reflexivity.
Qed.
Print Assumptions C30_block_end.
Example ex_C30_block_end :
  get_block_end_index [TText (pys "a"); TBegin (pys "x"); TBegin (pys "y"); TText (pys "b"); TEnd; TEnd; TEnd] 1 =
  Ok (Some 5).
Proof. reflexivity. Qed.

(** ** C30: the order of the blocks *)

(** Every character of the merged text has the blocks of the two lists around it, and of these
    the block that begins earlier is outside; of two blocks that begin at the same character the
    longer one; of two blocks of the same characters the one of the second list.  For lists without
    nested blocks ([C30_merge_styles_refuted]) and without empty blocks. *)
Theorem C30_order_partial : forall t1 t2, clean t1 -> clean t2 -> balanced t1 -> balanced t2 ->
  plain t1 = plain t2 -> flat false t1 -> flat false t2 -> solid t1 -> solid t2 ->
  exists m k, tokens_merge t1 t2 = Ok m /\
    styled [] m ++ repeat (nl, []) k = both (marked 0 None t1) (marked 0 None t2).
Proof.
  intros t1 t2 C1 C2 B1 B2 HT F1 F2 D1 D2. rewrite !plain_text in HT.
  unfold tokens_merge.
  destruct (merge_helper_spec (S (size t1 + size t2)) t1 0 [] t2 0 []) as [ms [Hh [Hi [P1 P2]]]]; auto.
  destruct (order_spec _ _ _ _ _ _ _ _ 0 None None Hh C1 C2 B1 B2 F1 F2 D1 D2 HT I I I I) as ([O1 _] & [O2 _] & O3).
  rewrite Hh. cbn [rbind].
  assert (Hn : forall i, nest (List.length (of_list i [])) (proj i ms) = Some 0).
  { intros [|]; simpl; [destruct P1 as [_ [-> _]] | destruct P2 as [_ [-> _]]]; auto. }
  destruct (merge_loop_spec ms [] Hi (Forall_nil _) Hn) as [r [Hr [N1 [T1 Q1]]]].
  rewrite Hr. cbn [rbind]. destruct (normalize_spec r 0 Q1 N1) as [m [Hm [Bm [Tm Em]]]].
  destruct (Em []) as [[k Ek] _]. exists m, k. split; auto.
  assert (ES : styled [] r = styled [] m ++ repeat (10%N, []) k).
  { unfold styled. rewrite Ek, chars_app, chars_repeat. reflexivity. }
  change nl with 10%N. rewrite <- ES, <- O1, <- O2. exact (loop_marks ms 0 None None r Hi Hr O3).
Qed.
Print Assumptions C30_order_partial.

Definition blocks (s : string) : list token := match parse s with Ok t => t | Err _ => [] end.
Example ex_C30_order :
  let t1 := blocks "~a{ABC}D~b{EF}~c{G}" in let t2 := blocks "~x{AB}~y{CD}~u{EFG}" in
  clean t1 /\ clean t2 /\ balanced t1 /\ balanced t2 /\ plain t1 = plain t2 /\
  flat false t1 /\ flat false t2 /\ solid t1 /\ solid t2 /\
  map snd (both (marked 0 None t1) (marked 0 None t2)) =
    [[pys "x"; pys "a"]; [pys "x"; pys "a"]; [pys "y"; pys "a"]; [pys "y"];
     [pys "b"; pys "u"]; [pys "b"; pys "u"]; [pys "c"; pys "u"]] /\
  exists m, tokens_merge t1 t2 = Ok m /\ styled [] m = both (marked 0 None t1) (marked 0 None t2).
Proof.
  cbv zeta. split; [repeat constructor; simpl; intuition discriminate|].
  split; [repeat constructor; simpl; intuition discriminate|].
  repeat split; try (cbn; lia). eexists. split; reflexivity.
Qed.

(** An empty block breaks the rule: the longer block of the first list is inside. *)
Theorem C30_order_refuted : exists t1 t2 m, clean t1 /\ clean t2 /\ balanced t1 /\ balanced t2 /\
  plain t1 = plain t2 /\ flat false t1 /\ flat false t2 /\ solid t2 /\ tokens_merge t1 t2 = Ok m /\
  map snd (styled [] m) = [[pys "a"; pys "x"]; [pys "a"]] /\
  map snd (both (marked 0 None t1) (marked 0 None t2)) = [[pys "x"; pys "a"]; [pys "a"]].
Proof.
  exists (blocks "~e{}~a{AB}"), (blocks "~x{A}B").
  eexists. split; [repeat constructor; simpl; intuition discriminate|].
  split; [repeat constructor; simpl; intuition discriminate|]. repeat split; cbn; lia.
Qed.
Print Assumptions C30_order_refuted.
