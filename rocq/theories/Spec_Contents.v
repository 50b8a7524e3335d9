(* Page contents divided into several streams (ISO 32000, 7.8.2): the parts are read as if
   they were separated by white space. *)
From Coq Require Import String.
From Verif Require Import PyBase Model_Objects Spec_Objects Spec_Syntax.

(* two texts put side by side do not melt the last token of the first into the first token
   of the second: white space or a delimiter stands on one side *)
Definition meets (a b : bytes) : Prop :=
  a = [] \/ b = [] \/ (exists r c, a = r ++ [c] /\ (white c \/ In c (B ")>]"))) \/
  (exists c r, b = c :: r /\ (white c \/ delim c)).
Fixpoint parts_meet (parts : list bytes) : Prop :=
  match parts with [] => True | a :: r => meets a (concat r) /\ parts_meet r end.
(* the parts separated by white space *)
Inductive spaced : list bytes -> bytes -> Prop :=
| sc_none : spaced [] []
| sc_last a : spaced [a] a
| sc_next a b r w t : w <> [] -> Forall white w -> spaced (b :: r) t -> spaced (a :: b :: r) (a ++ w ++ t).
