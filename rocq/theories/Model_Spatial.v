(* Model of the command spatial (cli.py:350-355): what is printed *)
From Coq Require Import String.
From Verif Require Import PyBase Model_Filters Model_Objects Model_Filestruct Model_Text Model_Docstruct Model_Api Model_Graphics Model_Fonts.
Open Scope Z_scope.

Section WithZlib.
Context {ZL : Zlib}.
(* cli.py:353-354: what is printed before the end or before an exception, and how the loop ends *)
Fixpoint spatial_from (fuel : nat) (d : doc) (leak : dict) (l : list Z) : bytes * res (dict * doc) :=
  match l with
  | [] => ([], Ok (leak, d))
  | i :: r =>
      match extract_page_text fuel d leak i with
      | Ok (t, leak1, d1) => let (out, e) := spatial_from fuel d1 leak1 r in (t ++ [10] ++ out, e)
      | Exc e => ([], Exc e)
      | Loop => ([], Loop)
      end
  end.
(* cli.py:350-355, for a document that was read *)
Definition spatial (fuel : nat) (d : doc) (leak : dict) : bytes * res (dict * doc) :=
  match pages fuel d leak None with
  | Ok (l, leak1, d1) => spatial_from fuel d1 leak1 (zseq 0 (length l))
  | Exc e => ([], Exc e)
  | Loop => ([], Loop)
  end.
End WithZlib.
