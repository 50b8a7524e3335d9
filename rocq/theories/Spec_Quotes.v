(* Markdown documents made of blocks and of quotations *)
From Coq Require Import String.
From Verif Require Import PyBase Spec_Markdown.

(* a quotation: lines that start with '>', followed by an empty line *)
Inductive passage := Unquoted (b : block) | Quoted (p : list bytes).
Definition passage_source (x : passage) : bytes :=
  match x with
  | Unquoted b => block_source b
  | Quoted p => flat_map (fun l => line_of (B "> " ++ l)) p ++ [10]
  end.
Definition passage_ok (x : passage) : Prop :=
  match x with
  | Unquoted b => block_ok b
  | Quoted p => p <> [] /\ Forall (fun l => letter (hd 0 l) /\ unmarked l) p
  end.
(* the space after the sign is kept, a browser does not show it *)
Inductive passage_html : passage -> bytes -> Prop :=
| Ph_block b h : block_html b h -> passage_html (Unquoted b) h
| Ph_quoted p hs : Forall2 line_html (map (cons 32) p) hs ->
    passage_html (Quoted p) (element (B "blockquote") (element (B "p") (concat hs))).
