(* Texts of titles, paragraphs and horizontal rules, and their HTML *)
From Coq Require Import String.
From Verif Require Import PyBase Model_Objects Spec_MdTokens Spec_MdRender Spec_MdTitles.

(* a rule: its line, which starts with one of its signs, and the number of blank lines after it *)
Inductive mditem := MiBlock (b : mdblock) | MiRule (l : bytes) (blank : nat).
Definition mdi_ok (x : mditem) : Prop :=
  match x with MiBlock b => mdb_ok b | MiRule l _ => hrule l /\ hd 32 l <> 32 end.
Definition mdi_lines (x : mditem) : list bytes :=
  match x with MiBlock b => mdb_lines b | MiRule l k => l :: repeat [] k end.
Definition mdi_html (x : mditem) : bytes :=
  match x with MiBlock b => mdb_html b | MiRule _ _ => [10] ++ B "<hr />" end.
