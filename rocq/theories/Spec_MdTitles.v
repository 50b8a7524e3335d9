(* Texts of titles and paragraphs and their HTML *)
From Coq Require Import String.
From Verif Require Import PyBase Model_Objects Spec_MdTokens Spec_MdRender.

(* a title: its level, its text, the number of blank lines after it *)
Inductive mdblock := MdPara (p : para) | MdTitle (level : nat) (l : bytes) (blank : nat).
Definition mdb_ok (b : mdblock) : Prop :=
  match b with MdPara p => para_ok p | MdTitle n l _ => (1 <= n)%nat /\ para_line l end.
Definition mdb_lines (b : mdblock) : list bytes :=
  match b with MdPara p => para_lines p | MdTitle n l k => (repeat 35 n ++ 32 :: l) :: repeat [] k end.
Definition mdb_html (b : mdblock) : bytes :=
  match b with
  | MdPara p => para_html p
  | MdTitle n l _ => [10] ++ B "<h" ++ dec (Z.of_nat n) ++ B ">" ++ l ++ B "</h" ++ dec (Z.of_nat n) ++ B ">"
  end.
