(* Specification vocabulary for markdown rendering *)
From Coq Require Import String.
From Verif Require Import PyBase.

(* p stands at position k of s *)
Definition stands (p s : bytes) (k : nat) : Prop := exists a b, s = a ++ p ++ b /\ length a = k.
(* every "](" is followed by a ")" somewhere *)
Definition closed_links (s : bytes) : Prop :=
  forall k, stands (B "](") s k -> exists j, (k < j)%nat /\ stands (B ")") s j.

(* a line of text with links and images *)
Inductive piece := Plain (t : bytes) | Link (txt url : bytes) | Image (alt url : bytes).
Definition source1 (p : piece) : bytes :=
  match p with
  | Plain t => t
  | Link txt url => B "[" ++ txt ++ B "](" ++ url ++ B ")"
  | Image alt url => B "![" ++ alt ++ B "](" ++ url ++ B ")"
  end.
Definition source (l : list piece) : bytes := flat_map source1 l.
Definition html_url (u : bytes) : bytes :=
  if beqb (skipn (length u - 3) u) (B ".md") then firstn (length u - 3) u ++ B ".html" else u.
Definition html1 (p : piece) : bytes :=
  match p with
  | Plain t => t
  | Link txt url => B "<a href='" ++ html_url url ++ B "'>" ++ txt ++ B "</a>"
  | Image alt url => B "<img src='" ++ url ++ B "' alt='" ++ alt ++ B "'>"
  end.
Definition html (l : list piece) : bytes := flat_map html1 l.
Definition unbracketed (t : bytes) : Prop := ~ In 91 t /\ ~ In 93 t.
Definition piece_ok (p : piece) : Prop :=
  match p with
  | Plain t => t <> [] /\ unbracketed t
  | Link t u | Image t u => unbracketed t /\ ~ In 41 u
  end.
(* texts alternate with links, and no text ends with an exclamation mark before a link *)
Fixpoint alternate (l : list piece) : Prop :=
  match l with
  | Plain t :: ((Plain _ :: _) as r) => False
  | Plain t :: ((Link _ _ :: _) as r) => last t 0 <> 33 /\ alternate r
  | _ :: r => alternate r
  | [] => True
  end.
Definition starts_link (l : list piece) : bool := match l with Link _ _ :: _ => true | _ => false end.

(* a line with code between backquotes *)
Inductive span := Words (t : bytes) | Code (t : bytes).
Definition span_source (p : span) : bytes := match p with Words t => t | Code t => B "`" ++ t ++ B "`" end.
Definition span_html (p : span) : bytes := match p with Words t => t | Code t => B "<code>" ++ t ++ B "</code>" end.
Definition span_ok (p : span) : Prop :=
  match p with
  | Words t => Forall (fun c => c <> 96 /\ c <> 42 /\ c <> 95) t
  | Code t => Forall (fun c => c <> 96) t
  end.

(* a line with code and emphasis: one, two or three marks on both sides *)
Inductive inline := IWords (t : bytes) | ICode (t : bytes) | IEmph (n : nat) (c : Z) (t : bytes).
Definition inline_source (p : inline) : bytes :=
  match p with
  | IWords t => t
  | ICode t => B "`" ++ t ++ B "`"
  | IEmph n c t => repeat c n ++ t ++ repeat c n
  end.
Definition inline_html (p : inline) : bytes :=
  match p with
  | IWords t => t
  | ICode t => B "<code>" ++ t ++ B "</code>"
  | IEmph 1 c t => B "<em>" ++ t ++ B "</em>"
  | IEmph 2 c t => B "<strong>" ++ t ++ B "</strong>"
  | IEmph _ c t => B "<em><strong>" ++ t ++ B "</strong></em>"
  end.
(* prev is the character before l; marks made of '_' stand after a space. The text after single marks has at least
   two characters, the text after double marks at least one, and the line may end there *)
Fixpoint inline_ok (prev : Z) (l : list inline) : Prop :=
  match l with
  | [] => True
  | IWords t :: r => Forall (fun c => c <> 96 /\ c <> 42 /\ c <> 95) t /\ inline_ok (last t prev) r
  | ICode t :: r => Forall (fun c => c <> 96) t /\ inline_ok 96 r
  | IEmph n c t :: r =>
      (1 <= n <= 3)%nat /\ (c = 42 \/ c = 95 /\ prev = 32) /\ t <> [] /\ Forall (fun x => x <> 42 /\ x <> 95) t /\
      (n = 3%nat \/ r = [] \/ exists w r', r = IWords w :: r' /\ (3 - n <= length w)%nat) /\ inline_ok c r
  end.

(* paragraphs of plain lines, each paragraph followed by an empty line *)
Definition letter (c : Z) : Prop := 65 <= c <= 90 \/ 97 <= c <= 122.
Definition plain_line (l : bytes) : Prop :=
  letter (hd 0 l) /\ last l 0 <> 32 /\
  Forall (fun c => c <> 10 /\ c <> 13 /\ c <> 91 /\ c <> 93 /\ c <> 96 /\ c <> 42 /\ c <> 95) l.
Definition paragraph := list bytes.
Definition plain_paragraph (p : paragraph) : Prop := p <> [] /\ Forall plain_line p.
Definition paragraph_source (p : paragraph) : bytes := flat_map (fun l => l ++ [10]) p ++ [10].
Definition paragraph_html (p : paragraph) : bytes := B "<p>" ++ concat p ++ B "</p>" ++ [10].

(* what a browser shows for a text where < > & may be written as entities *)
Fixpoint shown_text (s : bytes) : bytes :=
  match s with
  | [] => []
  | c :: r =>
      match r with
      | a :: b :: d :: e =>
          if (c =? 38) && (a =? 108) && (b =? 116) && (d =? 59) then 60 :: shown_text e
          else if (c =? 38) && (a =? 103) && (b =? 116) && (d =? 59) then 62 :: shown_text e
          else match e with
               | g :: f => if (c =? 38) && (a =? 97) && (b =? 109) && (d =? 112) && (g =? 59) then 38 :: shown_text f else c :: shown_text r
               | [] => c :: shown_text r
               end
      | _ => c :: shown_text r
      end
  end.

(* documents made of blocks: a paragraph or a list is followed by an empty line, a title is one line of '#',
   a code block stands between two lines of backquotes or is indented by four spaces, an underlined title has a line
   of '=' or '-' below it, a table has a line of titles, a line of dashes and its rows *)
Inductive block :=
  | Para (p : list bytes)
  | Title (n : nat) (t : bytes)
  | Fence (lang : bytes) (code : list bytes)
  | Bullets (w : nat) (c : Z) (items : list bytes)
  | Steps (w : nat) (items : list (bytes * bytes))
  | Underlined (n : nat) (t : bytes) (k : nat)
  | Indented (code : list bytes)
  | Table (head rule : list bytes) (rows : list (list bytes)).
Definition line_of (l : bytes) : bytes := l ++ [10].
Definition bullet_line (w : nat) (c : Z) (t : bytes) : bytes := repeat 32 w ++ [c; 32] ++ t.
Definition step_line (w : nat) (s : bytes * bytes) : bytes := repeat 32 w ++ fst s ++ B ". " ++ snd s.
Definition under_line (n k : nat) : bytes := repeat (if Nat.eqb n 1 then 61 else 45) k.
Definition code_indent (l : bytes) : bytes := B "    " ++ l.
Definition bar_line (l : list bytes) : bytes := B "|" ++ flat_map (fun c => c ++ B "|") l.
Definition block_source (b : block) : bytes :=
  match b with
  | Para p => flat_map line_of p ++ [10]
  | Title n t => line_of (repeat 35 n ++ B " " ++ t)
  | Fence lang code => line_of (B "```" ++ lang) ++ flat_map line_of code ++ line_of (B "```")
  | Bullets w c items => flat_map (fun t => line_of (bullet_line w c t)) items ++ [10]
  | Steps w items => flat_map (fun s => line_of (step_line w s)) items ++ [10]
  | Underlined n t k => line_of t ++ line_of (under_line n k)
  | Indented code => flat_map (fun l => line_of (code_indent l)) code ++ [10]
  | Table head rule rows => line_of (bar_line head) ++ line_of (bar_line rule) ++ flat_map (fun r => line_of (bar_line r)) rows ++ [10]
  end.
Definition element (t b : bytes) : bytes := B "<" ++ t ++ B ">" ++ b ++ B "</" ++ t ++ B ">" ++ [10].
(* two spaces at the end of a line ask for a line break *)
Definition broken (l : bytes) : Prop := exists m, l = m ++ B "  ".
Definition line_html (l h : bytes) : Prop := (broken l /\ h = l ++ B "<br>") \/ (~ broken l /\ h = l).
Definition escape1 (c : Z) : bytes := if c =? 60 then B "&lt;" else if c =? 62 then B "&gt;" else [c].
Definition heading (n : nat) : bytes := [104; 48 + Z.of_nat n].
Inductive block_html : block -> bytes -> Prop :=
  | bh_para p hs : Forall2 line_html p hs -> block_html (Para p) (element (B "p") (concat hs))
  | bh_title n t : block_html (Title n t) (element (heading n) t)
  | bh_fence lang code : block_html (Fence lang code) (element (B "pre") (flat_map escape1 (flat_map line_of code)))
  | bh_bullets w c items : block_html (Bullets w c items) (element (B "ul") (flat_map (element (B "li")) items))
  | bh_steps w items : block_html (Steps w items) (element (B "ol") (flat_map (fun s => element (B "li") (snd s)) items))
  | bh_underlined n t k : block_html (Underlined n t k) (element (heading n) t)
  | bh_indented code : block_html (Indented code) (element (B "pre") (flat_map escape1 (flat_map (fun l => line_of (code_indent l)) code)))
  | bh_table head rule rows : block_html (Table head rule rows)
      (element (B "table") (element (B "thead") (element (B "tr") (flat_map (element (B "th")) head)) ++
                            element (B "tbody") (flat_map (fun r => element (B "tr") (flat_map (element (B "td")) r)) rows))).
(* a text without markup, on one line *)
Definition unmarked (l : bytes) : Prop :=
  Forall (fun c => c <> 10 /\ c <> 13 /\ c <> 91 /\ c <> 93 /\ c <> 96 /\ c <> 42 /\ c <> 95) l.
Definition code_line (l : bytes) : Prop := ~ In 10 l /\ ~ In 13 l /\ firstn 3 l <> B "```".
Definition indented_line (l : bytes) : Prop := code_line l /\ l <> [] /\ hd 0 l <> 32 /\ hd 0 l <> 62 /\ hd 0 l <> 9.
Definition cell_text (c : bytes) : Prop := unmarked c /\ ~ In 124 c.
Definition ruled (c : bytes) : Prop := exists a r, c = a :: B "--" ++ r.
Definition block_ok (b : block) : Prop :=
  match b with
  | Para p => p <> [] /\ Forall (fun l => letter (hd 0 l) /\ unmarked l) p
  | Title n t => (1 <= n <= 6)%nat /\ t <> [] /\ unmarked t
  | Fence lang code => ~ In 10 lang /\ ~ In 13 lang /\ Forall code_line code
  | Bullets w c items => (w <= 3)%nat /\ In c (B "*+-") /\ items <> [] /\ Forall (fun t => t <> [] /\ unmarked t) items
  | Steps w items => (w <= 3)%nat /\ items <> [] /\
      Forall (fun s => fst s <> [] /\ Forall (fun c => 48 <= c <= 57) (fst s) /\ snd s <> [] /\ unmarked (snd s)) items
  | Underlined n t k => (1 <= n <= 2)%nat /\ (2 <= k)%nat /\ letter (hd 0 t) /\ unmarked t
  | Indented code => code <> [] /\ Forall indented_line code
  | Table head rule rows =>
      hd 0 (hd [] head) = 32 /\ Forall cell_text head /\
      rule <> [] /\ ruled (hd [] rule) /\ Forall cell_text rule /\
      Forall (fun r => r <> [] /\ ~ ruled (hd [] r) /\ Forall cell_text r) rows
  end.
