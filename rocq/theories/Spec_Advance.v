(* Displacement of the text position by an array shown with TJ (ISO 32000-1, 9.4.3 and 9.4.4) *)
From Coq Require Import String QArith Qcanon.
From Verif Require Import PyBase Model_Text Model_Graphics Spec_Graphics.
Open Scope Z_scope.

(* an element of the array with the codes of its characters (none for a number) *)
Definition tj_codes (f : font) (e : tj_elem) (codes : list Z) : Prop :=
  match e with
  | TJStr s us ws => f_dec f s = Ok (us, codes) /\ Forall2 (fun c w => num_of (f_width f c) = Ok w) codes ws
  | TJNum o v => num_of o = Ok v /\ codes = []
  end.
(* a string moves by the displacement of its glyphs, a number goes back *)
Definition elem_shift (fs tc tw th : Qc) (e : tj_elem) (codes : list Z) : Qc :=
  match e with
  | TJStr _ _ ws => string_shift fs tc tw th codes ws
  | TJNum _ v => (- (v / qc 1000) * fs * th / qc 100)%Qc
  end.
Definition array_shift (fs tc tw th : Qc) (l : list tj_elem) (cs : list (list Z)) : Qc :=
  sum_q (map (fun p => elem_shift fs tc tw th (fst p) (snd p)) (combine l cs)).
