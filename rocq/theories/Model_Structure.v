(* Model of structure and paper (pdfsyntax/api.py).
   Simplifications: the sides of the media box are exact rationals, so are the sizes computed
   from them; -0.0 and sizes of 10^16 inches are not modelled. *)
From Coq Require Import String QArith Qcanon.
From Verif Require Import PyBase Model_Filters Model_Objects Model_Filestruct Model_Text Model_Docstruct Model_Api Model_Graphics.
Open Scope Z_scope.

(* mediabox[i]; something else than a list is not modelled *)
Definition corner (m : obj) (i : nat) : res Qc :=
  match m with
  | PList l => let* o := of_opt EIndexError (nth_error l i) in num_of o
  | _ => Exc EUnsupported
  end.
(* api.py:171-174: the last name of the sizes that are equal *)
Fixpoint paper_kind (x y : Qc) (l : list (bytes * (Z * Z))) (ptype : bytes) : bytes :=
  match l with
  | [] => ptype
  | (t, (w, h)) :: r =>
      paper_kind x y r (if Qc_eq_bool (qc w) x && Qc_eq_bool (qc h) y then t else ptype)
  end.
(* api.py:175  int(x*25.4/72) *)
Definition mm_of (x : Qc) : Z := Z.quot (Qnum x * 127) (Zpos (Qden x) * 360).
(* api.py:175  round(x/72, 2), in hundredths: the nearest one, the even one of two *)
Definition hundredths (x : Qc) : Z :=
  let n := Qnum x * 100 in
  let d := Zpos (Qden x) * 72 in
  let f := n / d in
  let r := 2 * (n mod d) in
  if r <? d then f else if d <? r then f + 1 else if Z.even f then f else f + 1.
(* the text of a float with two decimals *)
Definition decimals (h : Z) : bytes :=
  dec (h / 100) ++ [46] ++ [48 + h mod 100 / 10] ++ (if h mod 10 =? 0 then [] else [48 + h mod 10]).
Definition float_text (h : Z) : bytes := if h <? 0 then 45 :: decimals (- h) else decimals h.
(* api.py:168-177  paper *)
Definition paper (m : obj) : res bytes :=
  let* c := corner m 2 in let* a := corner m 0 in
  let* d := corner m 3 in let* b := corner m 1 in
  let x := (c - a)%Qc in let y := (d - b)%Qc in
  let ptype := paper_kind x y PAPER_SIZES (B "unknown") in
  let pdim := dec (mm_of x) ++ B "x" ++ dec (mm_of y) ++ B "mm or " ++ float_text (hundredths x) ++ B "x" ++ float_text (hundredths y) ++ B "in" in
  Ok (pdim ++ B " (" ++ ptype ++ B ")").

Section WithZlib.
Context {ZL : Zlib}.

Record about := mk_about {
  a_version : bytes; a_pages : obj; a_revisions : Z; a_encrypted : bool; a_hybrid : bool;
  a_linearized : bool; a_paper : bytes }.
(* api.py:133-146  structure; also the dictionary of attributes that flat_page_tree shares
   between calls, and the document with the objects read *)
Definition structure (fuel : nat) (d : doc) (leak : dict) : res (about * dict * doc) :=
  let* (v, d1) := version d in
  let* (n, d2) := number_pages d1 in
  let r := updates d2 in
  let* (e, d3) := encrypted d2 in
  let* h := hybrid d3 in
  let* p := fdata_at d3 0 in
  let* l := linearized p in
  let* (m, leak', d4) := page_layouts fuel d3 leak (Some 1) in
  let* first := of_opt EIndexError (nth_error m 0) in
  let* k := paper (fst first) in
  Ok (mk_about v n r e h (match l with Some (_ :: _) => true | _ => false end) k, leak', d4).
End WithZlib.
