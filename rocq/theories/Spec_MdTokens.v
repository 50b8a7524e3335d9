(* Lines and tokens of a markdown text *)
From Coq Require Import String.
From Verif Require Import PyBase.

(* a horizontal rule: spaces and three or more of one of the signs * _ - *)
Definition hrule (l : bytes) : Prop :=
  exists c, In c (B "*_-") /\ Forall (fun x => x = c \/ x = 32) l /\ (3 <= count_occ Z.eq_dec l c)%nat.
(* l is the line of the text that starts after pre *)
Definition line_in (md pre l : bytes) : Prop :=
  ~ In 10 l /\ exists rest, md = pre ++ l ++ rest /\ (rest = [] \/ exists r, rest = 10 :: r).

(* signs that are tokens by themselves *)
Definition sign_char (c : Z) : Prop := In c (B "[]()+.>*_`").
Definition emph_char (c : Z) : Prop := In c (B "*_").
(* a token: a sign, two or three backquotes, or a word without signs *)
Inductive tok_kind : bytes -> Prop :=
| Tk_sign c : sign_char c -> tok_kind [c]
| Tk_quotes n : (1 <= n <= 3)%nat -> tok_kind (repeat 96 n)
| Tk_word w : w <> [] -> Forall (fun c => ~ sign_char c) w -> tok_kind w.
Definition is_word (w : bytes) : Prop := Forall (fun c => ~ sign_char c) w.
(* the tokens of a line *)
Definition tokens_of (l : bytes) (toks : list bytes) : Prop :=
  (l = [] /\ toks = [[]]) \/
  (toks <> [] /\ concat toks = l /\ Forall tok_kind toks /\
   forall a x y b, toks = a ++ x :: y :: b -> is_word x -> is_word y -> False).
(* an ordinary line *)
Record ordinary (l : bytes) : Prop := {
  or_tag : ~ In 60 l;
  or_dash : ~ In 45 l;
  or_head : forall c r, l = c :: r -> c <> 32 /\ c <> 35 /\ c <> 91;
  or_last : last l 0 <> 61;
  or_emph : forall a x y b, l = a ++ x :: y :: b -> emph_char x -> emph_char y -> False;
  or_rule : ~ hrule l
}.
(* a text of lines, each with its end of line *)
Definition lines_text (ls : list bytes) : bytes := flat_map (fun l => l ++ [10]) ls.
