(** Model of elsie/text/textparser.py, elsie/text/highlight.py and of the text handling of
    BoxMixin.code and BoxMixin.text. *)
From Coq Require Import List ZArith NArith Bool Arith String.
From Verif Require Import Py.
Import ListNotations.

(** textparser.py: the token tuples ("text", s), ("newline", n), ("begin", style),
    ("end", None). Newline counts are natural numbers. *)
Inductive token :=
| TText (s : str)
| TNewline (n : nat)
| TBegin (style : str)
| TEnd.

Definition nl : char := 10%N.

(** textparser.py:5-10. *)
Fixpoint number_of_lines_from (lines : nat) (ts : list token) : nat :=
  match ts with
  | [] => lines
  | TNewline v :: ts' => number_of_lines_from (lines + v) ts'
  | _ :: ts' => number_of_lines_from lines ts'
  end.
Definition number_of_lines (ts : list token) : nat := number_of_lines_from 1 ts.

(** textparser.py:13-31, the loop; [res] is the reversed list [result]. *)
Fixpoint normalize_loop (ts : list token) (res : list token) : result (list token) :=
  match ts with
  | [] => Ok res
  | TText [] :: ts' => normalize_loop ts' res
  | TNewline v :: ts' =>
      match res with
      | TNewline u :: r => normalize_loop ts' (TNewline (u + v) :: r)
      | _ => normalize_loop ts' (TNewline v :: res)
      end
  | TEnd :: ts' =>
      match res with
      | [] => Err EIndex                       (* result[-1] *)
      | TNewline u :: r => normalize_loop ts' (TNewline u :: TEnd :: r)
      | _ => normalize_loop ts' (TEnd :: res)
      end
  | t :: ts' => normalize_loop ts' (t :: res)
  end.
(** textparser.py:13-36. *)
Definition normalize_tokens (ts : list token) : result (list token) :=
  do r <- normalize_loop ts [];
  Ok (rev (match r with TNewline _ :: r' => r' | _ => r end)).

(** [str(n)] for a natural number: [fuel] is at least the number of digits. *)
Fixpoint dec_fuel (fuel n : nat) : str :=
  match fuel with
  | O => []
  | S f => if n <? 10 then [N.of_nat (48 + n)]
           else dec_fuel f (n / 10) ++ [N.of_nat (48 + n mod 10)]
  end.
Definition dec (n : nat) : str := dec_fuel (S n) n.
(** [s.zfill(w)] for a string without sign. *)
Definition zfill (w : nat) (s : str) : str := repeat 48%N (w - List.length s) ++ s.

Definition code_lineno : str := pys "code_lineno"%string.

(** textparser.py:48-53. *)
Fixpoint number_newlines (w : nat) (count line : nat) : list token :=
  match count with
  | O => []
  | S c => TNewline 1 :: TBegin code_lineno :: TText (zfill w (dec (S line)) ++ [32%N]) :: TEnd
           :: number_newlines w c (S line)
  end.
(** textparser.py:44-54. *)
Fixpoint add_numbers_loop (w line : nat) (ts : list token) : list token :=
  match ts with
  | [] => []
  | TNewline n :: ts' => number_newlines w n line ++ add_numbers_loop w (line + n) ts'
  | t :: ts' => t :: add_numbers_loop w line ts'
  end.
(** textparser.py:39-54. *)
Definition add_line_numbers (ts : list token) : list token :=
  let w := List.length (dec (number_of_lines ts)) in
  TBegin code_lineno :: TText (zfill w [49%N] ++ [32%N]) :: TEnd :: add_numbers_loop w 1 ts.

Definition is_char (o : option char) (c : char) : bool :=
  match o with Some x => N.eqb c x | None => false end.

(** textparser.py:58-83.  [name] tells whether the inner loop (68-69) runs, [buf] is the
    reversed text[start:i].  Returns the tokens and the final [counter].
    [escape_char] may be None (boxmixin.py:742). *)
Fixpoint scan (esc : option char) (b e : char) (counter : nat) (name : bool) (buf s : str)
  : list token * nat :=
  match s with
  | [] => if name then ([TBegin (rev buf)], S counter)
          else (match buf with [] => [] | _ => [TText (rev buf)] end, counter)
  | c :: s' =>
      if name then
        if N.eqb c b then
          let (ts, k) := scan esc b e (S counter) false [] s' in (TBegin (rev buf) :: ts, k)
        else scan esc b e counter true (c :: buf) s'
      else if is_char esc c then
        let (ts, k) := scan esc b e counter true [] s' in (TText (rev buf) :: ts, k)
      else if N.eqb c e && (1 <=? counter) then
        let (ts, k) := scan esc b e (counter - 1) false [] s' in
        (TText (rev buf) :: TEnd :: ts, k)
      else scan esc b e counter false (c :: buf) s'
  end.

(** textparser.py:86-94. *)
Definition split_token (t : token) : list token :=
  match t with
  | TText s => match split_on nl s with
               | [] => []
               | l :: ls => TText l :: flat_map (fun x => [TNewline 1; TText x]) ls
               end
  | _ => [t]
  end.

(** textparser.py:57-98. *)
Definition parse_text (s : str) (esc : option char) (b e : char) : result (list token) :=
  let (ts, counter) := scan esc b e 0 false [] s in
  if 0 <? counter then Err EException
  else normalize_tokens (flat_map split_token ts).

(** textparser.py:101-108; the stack is kept with the innermost block first. *)
Fixpoint open_blocks_from (blocks : list token) (ts : list token) : result (list token) :=
  match ts with
  | [] => Ok blocks
  | TBegin s :: ts' => open_blocks_from (TBegin s :: blocks) ts'
  | TEnd :: ts' => match blocks with
                   | [] => Err EIndex
                   | _ :: bs => open_blocks_from bs ts'
                   end
  | _ :: ts' => open_blocks_from blocks ts'
  end.
Definition open_blocks (ts : list token) : result (list token) :=
  do bs <- open_blocks_from [] ts; Ok (rev bs).

(** textparser.py:111-118. *)
Fixpoint open_blocks_count (ts : list token) : Z :=
  match ts with
  | [] => 0
  | TBegin _ :: ts' => 1 + open_blocks_count ts'
  | TEnd :: ts' => open_blocks_count ts' - 1
  | _ :: ts' => open_blocks_count ts'
  end%Z.

(** textparser.py:121-134, on the list from [index] on: offset of the end of the block. *)
Fixpoint block_end_from (count : nat) (off : nat) (ts : list token) : option nat :=
  match ts with
  | [] => None
  | TBegin _ :: ts' => block_end_from (S count) (S off) ts'
  | TEnd :: ts' => match count with
                   | O => Some off
                   | S c => block_end_from c (S off) ts'
                   end
  | _ :: ts' => block_end_from count (S off) ts'
  end.
Definition get_block_end_index (ts : list token) (index : nat) : result (option nat) :=
  match nth_error ts index with
  | None => Err EIndex
  | Some (TBegin _) => Ok (block_end_from 0 (S index) (skipn (S index) ts))
  | Some _ => Err EAssertion
  end.

Definition is_newline (t : token) : bool := match t with TNewline _ => true | _ => false end.

(** textparser.py:138-141: [b] after the loop; the argument is index + 1. *)
Fixpoint line_begin (ts : list token) (k : nat) : nat :=
  match k with
  | O => O
  | S k' => match nth_error ts k' with
            | Some t => if is_newline t then S k' else line_begin ts k'
            | None => O
            end
  end.
(** textparser.py:143-145, on the list from [index] on. *)
Fixpoint line_rest (ts : list token) : nat :=
  match ts with
  | [] => O
  | t :: ts' => if is_newline t then O else S (line_rest ts')
  end.

(** textparser.py:137-150, for 0 <= index < len(tokens) (otherwise IndexError or, for a
    negative index, not modelled). *)
Definition extract_line (ts : list token) (index : nat) : result (list token * Z) :=
  if List.length ts <=? index then Err EIndex
  else
    let b := line_begin ts (S index) in
    let e := index + line_rest (skipn index ts) in
    do blocks <- open_blocks (firstn b ts);
    let r := blocks ++ firstn (e - b) (skipn b ts) in
    Ok (r ++ repeat TEnd (Z.to_nat (open_blocks_count r)),
        (Z.of_nat index - Z.of_nat b + Z.of_nat (List.length blocks))%Z).

(** textparser.py:153-160. *)
Fixpoint tokens_to_text (ts : list token) : str :=
  match ts with
  | [] => []
  | TText s :: ts' => s ++ tokens_to_text ts'
  | TNewline n :: ts' => repeat nl n ++ tokens_to_text ts'
  | _ :: ts' => tokens_to_text ts'
  end.

(** The stream made by _tokens_merge_helper: tokens, and ("_block", i, token); [MBlock true]
    is i = 0 (the first list). *)
Inductive mitem := MTok (t : token) | MBlock (first : bool) (t : token).

(** [l1 > l2] of Python lists of numbers. *)
Fixpoint list_gt (l1 l2 : list nat) : bool :=
  match l1, l2 with
  | [], _ => false
  | _ :: _, [] => true
  | x :: l1', y :: l2' => if x =? y then list_gt l1' l2' else y <? x
  end.

(** textparser.py:234-236: text of the block that begins the list. *)
Definition block_text (ts : list token) : str :=
  tokens_to_text (match block_end_from 0 1 (tl ts) with
                  | Some k => firstn k ts
                  | None => ts
                  end).

(** textparser.py:193-289.  [r1] is last[0] followed by the unread tokens of the first list
    ([] for "<END>"), [i1] is indices[0] - 1; the stacks are in Python order.  A begin
    token in last[i] is tokens[i][indices[i] - 1], so that [r1] = tokens[0][i1:] there. *)
Definition pop (st : list nat) : result (list nat) :=
  match st with [] => Err EIndex | _ => Ok (removelast st) end.
Fixpoint merge_helper (fuel : nat) (r1 : list token) (i1 : nat) (st1 : list nat)
  (r2 : list token) (i2 : nat) (st2 : list nat) : result (list mitem) :=
  match fuel with
  | O => Err ELoop
  | S f =>
      let new1 st1' := match r1 with
        | t :: q => do m <- merge_helper f q (S i1) st1' r2 i2 st2; Ok (MBlock true t :: m)
        | [] => Err ELoop end in
      let new2 st2' := match r2 with
        | t :: q => do m <- merge_helper f r1 i1 st1 q (S i2) st2'; Ok (MBlock false t :: m)
        | [] => Err ELoop end in
      let is_end r := match r with TEnd :: _ => true | _ => false end in
      let is_begin r := match r with TBegin _ :: _ => true | _ => false end in
      if is_end r1 && (negb (is_end r2) || list_gt st1 st2) then            (* 219 *)
        do st1' <- pop st1; new1 st1'
      else if is_end r2 then                                                (* 224 *)
        do st2' <- pop st2; new2 st2'
      else if is_begin r1 && (negb (is_begin r2)
               || (List.length (block_text r2) <? List.length (block_text r1))) then  (* 229-247 *)
        new1 (st1 ++ [i1])
      else if is_begin r2 then                                              (* 249 *)
        new2 (st2 ++ [i1])
      else if is_begin r1 then Err EAssertion  (* 274; unreachable: 229-249 cover it *)
      else
        match r1, r2 with
        | [], [] => Ok []                                                   (* 254-256 *)
        | [], _ => Err EAssertion
        | _, [] => Err EAssertion
        | TNewline v1 :: q1, TNewline v2 :: q2 =>                           (* 258-272 *)
            if v1 =? v2 then
              do m <- merge_helper f q1 (S i1) st1 q2 (S i2) st2; Ok (MTok (TNewline v1) :: m)
            else if v1 <? v2 then
              do m <- merge_helper f q1 (S i1) st1 (TNewline (v2 - v1) :: q2) i2 st2;
              Ok (MTok (TNewline v1) :: m)
            else
              do m <- merge_helper f (TNewline (v1 - v2) :: q1) i1 st1 q2 (S i2) st2;
              Ok (MTok (TNewline v2) :: m)
        | TText v1 :: q1, TText v2 :: q2 =>                                 (* 274-288 *)
            if List.length v1 =? List.length v2 then
              do m <- merge_helper f q1 (S i1) st1 q2 (S i2) st2; Ok (MTok (TText v1) :: m)
            else if List.length v1 <? List.length v2 then
              do m <- merge_helper f q1 (S i1) st1 (TText (skipn (List.length v1) v2) :: q2) i2 st2;
              Ok (MTok (TText v1) :: m)
            else
              do m <- merge_helper f (TText (skipn (List.length v2) v1) :: q1) i1 st1 q2 (S i2) st2;
              Ok (MTok (TText v2) :: m)
        | _, _ => Err EAssertion
        end
  end.

(** textparser.py:178-186: the blocks closed before the one of the list [i], and what
    remains of [opened] (innermost first) after [del opened[pos]]. *)
Fixpoint close_block (i : bool) (opened : list (bool * token))
  : option (list (bool * token) * list (bool * token)) :=
  match opened with
  | [] => None
  | (j, t) :: rest =>
      if Bool.eqb j i then Some ([], rest)
      else match close_block i rest with
           | Some (skipped, rest') => Some ((j, t) :: skipped, rest')
           | None => None
           end
  end.

(** textparser.py:165-189. *)
Fixpoint merge_loop (ms : list mitem) (opened : list (bool * token)) : result (list token) :=
  match ms with
  | [] => match opened with [] => Ok [] | _ => Err EAssertion end
  | MTok t :: ms' => do r <- merge_loop ms' opened; Ok (t :: r)
  | MBlock i (TBegin s) :: ms' =>
      do r <- merge_loop ms' ((i, TBegin s) :: opened); Ok (TBegin s :: r)
  | MBlock i TEnd :: ms' =>
      match close_block i opened with
      | None => Err EIndex                    (* del opened[pos] *)
      | Some (skipped, rest) =>
          do r <- merge_loop ms' (skipped ++ rest);
          Ok (repeat TEnd (S (List.length skipped)) ++ map snd skipped ++ r)
      end
  | MBlock _ _ :: _ => Err EAssertion
  end.

(** A bound of the number of iterations of the loop in lines 216-288. *)
Fixpoint size (ts : list token) : nat :=
  match ts with
  | [] => 0
  | TText s :: ts' => S (List.length s) + size ts'
  | TNewline n :: ts' => S n + size ts'
  | _ :: ts' => S (size ts')
  end.

(** textparser.py:163-190. *)
Definition tokens_merge (t1 t2 : list token) : result (list token) :=
  do ms <- merge_helper (S (size t1 + size t2)) t1 0 [] t2 0 [];
  do r <- merge_loop ms [];
  normalize_tokens r.

(** [str.splitlines()]: the line boundaries of CPython. *)
Definition is_break (c : char) : bool :=
  existsb (N.eqb c) [10; 11; 12; 13; 28; 29; 30; 133; 8232; 8233]%N.
Fixpoint splitlines_from (buf s : str) : list str :=
  match s with
  | [] => match buf with [] => [] | _ => [rev buf] end
  | c :: s' =>
      if is_break c then
        rev buf :: match s' with
                   | d :: s'' => if (N.eqb c 13 && N.eqb d 10)%bool
                                 then splitlines_from [] s''
                                 else splitlines_from [] s'
                   | [] => []
                   end
      else splitlines_from (c :: buf) s'
  end.
Definition splitlines (s : str) : list str := splitlines_from [] s.

(** [min(...)] of numbers. *)
Fixpoint list_min (ns : list nat) : result nat :=
  match ns with
  | [] => Err EValue
  | [n] => Ok n
  | n :: ns' => do m <- list_min ns'; Ok (Nat.min n m)
  end.

(** textparser.py:292-296. *)
Definition trim_indent (s : str) : result str :=
  let lines := splitlines s in
  do m <- list_min (map (fun l => List.length l - List.length (lstrip l))
                      (filter (fun l => match strip l with [] => false | _ => true end) lines));
  Ok (join_with [nl] (map (skipn m) lines)).

(** highlight.py:17-30, MyFormatter.format; a lexer token is (str(ttype), value). *)
Definition pygments_ : str := pys "pygments-"%string.
Definition format_token (tv : str * str) : list token :=
  let (ttype, value) := tv in
  if str_eqb value [nl] then [TNewline 1]
  else TBegin (pygments_ ++ ttype) ::
       (if existsb (N.eqb nl) value
        then removelast (flat_map
               (fun t => match t with [] => [TNewline 1] | _ => [TText t; TNewline 1] end)
               (split_on nl value))
        else [TText value]) ++ [TEnd].
(** highlight.py:33-37; the lexer is a parameter. *)
Definition highlight_code (lexer : str -> list (str * str)) (code : str) : result (list token) :=
  normalize_tokens (flat_map format_token (lexer code)).

(** [s.replace("\t", " " * tabsize)] *)
Definition expand_tabs (tabsize : nat) (s : str) : str :=
  flat_map (fun c => if N.eqb c 9 then repeat 32%N tabsize else [c]) s.

(** boxmixin.py:710-716 and 781-787: the three delimiter characters. *)
Definition delimiters (esc : str) : result (char * char * char) :=
  match esc with
  | [x; y; z] => Ok (x, y, z)
  | [x] => Ok (x, 123%N, 125%N)
  | _ => Err EException
  end.

(** boxmixin.py:725-728: leading newlines and the rest. *)
Fixpoint strip_newlines (s : str) : nat * str :=
  match s with
  | c :: s' => if N.eqb c nl then let (n, r) := strip_newlines s' in (S n, r) else (0, s)
  | [] => (0, [])
  end.

(** boxmixin.py:708-748, BoxMixin.code up to the tokens passed to _text_helper.
    [lexer = None] models a false [language]. *)
Definition code_tokens (lexer : option (str -> list (str * str))) (text : str) (tabsize : nat)
  (line_numbers use_styles : bool) (escape_char : str) : result (list token) :=
  let text := expand_tabs tabsize text in
  do (esc, b, e) <- delimiters escape_char;
  do ts <- match lexer with
    | Some lex =>
        if use_styles then
          let (start_newlines, text) := strip_newlines text in
          do ptext <- parse_text text (Some esc) b e;
          do hl <- highlight_code lex (tokens_to_text ptext);
          do m <- tokens_merge hl ptext;
          Ok (if 0 <? start_newlines then TNewline start_newlines :: m else m)
        else highlight_code lex text
    | None => parse_text text (if use_styles then Some esc else None) b e
    end;
  Ok (if line_numbers then add_line_numbers ts else ts).

(** boxmixin.py:781-792, BoxMixin.text up to the tokens passed to _text_helper. *)
Definition text_tokens (text escape_char : str) : result (list token) :=
  do (esc, b, e) <- delimiters escape_char;
  parse_text text (Some esc) b e.
