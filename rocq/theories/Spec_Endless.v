(* Page trees without end *)
From Coq Require Import String.
From Verif Require Import PyBase Model_Filters Model_Objects Model_Filestruct Model_Docstruct Model_Api.
From Verif Require Import Spec_Objects Spec_Filestruct Spec_Docstruct Spec_Pages.

Section WithZlib.
Context {ZL : Zlib}.
(* a set of nodes of the page tree each of which has a kid in the set, after kids
   that are finite trees: a cycle of /Kids, for instance *)
Definition endless (d : doc) (P : obj -> Prop) : Prop := forall o, P o ->
  exists n nd before k after, points_at d o n (PDict nd) /\ dget K_Type nd = Some (PStr K_Pages) /\
    dget K_Kids nd = Some (PList (map tref before ++ k :: after)) /\ Forall (holds d) before /\ P k.
(* the document has such a page tree *)
Definition endless_tree (d : doc) : Prop := exists c cat o P, catalog_at d c cat /\ dget K_Pages cat = Some o /\ endless d P /\ P o.
End WithZlib.
