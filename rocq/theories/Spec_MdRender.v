(* Paragraphs of a markdown text and their HTML *)
From Coq Require Import String.
From Verif Require Import PyBase Spec_MdTokens.

(* a line of a paragraph, without the characters that the renderer gives a meaning to *)
Record para_line (l : bytes) : Prop := {
  pl_some : l <> [];
  pl_one : ~ In 10 l;
  pl_chars : Forall (fun c => ~ In c (B "#`~>*+-<_![")) l;
  pl_head : hd 0 l <> 32;
  pl_last : last l 0 <> 61;
  pl_spaces : forall a b, l <> a ++ B "    " ++ b
}.
(* a paragraph: its first line, the others, and the number of blank lines after it, less one *)
Definition para := (bytes * list bytes * nat)%type.
Definition para_ok (p : para) : Prop :=
  let '(f, r, _) := p in para_line f /\ Forall (fun l => para_line l /\ is_word l) r.
Definition para_lines (p : para) : list bytes := let '(f, r, n) := p in f :: r ++ repeat [] (S n).
Definition para_html (p : para) : bytes :=
  let '(f, r, _) := p in [10] ++ B "<p>" ++ lines_text (f :: r) ++ B "</p>".
