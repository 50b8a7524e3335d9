(* Specification vocabulary for the predefined encodings of simple fonts (PDF 32000-1, annex D.2) *)
From Coq Require Import ZArith List Bool.
Import ListNotations.
Open Scope Z_scope.

(* the characters of codes first, first + 1 ...; 0: no character *)
Fixpoint row_char (first c : Z) (l : list Z) : option Z :=
  match l with
  | [] => None
  | u :: r => if c =? first then (if u =? 0 then None else Some u) else row_char (first + 1) c r
  end.
(* WinAnsiEncoding: printable ASCII, 0x80 to 0x9F by this table, then Latin-1.  0xA0 is the
   nonbreaking space and 0xAD the soft hyphen *)
Definition winansi_char (c : Z) : option Z :=
  if (32 <=? c) && (c <=? 126) || (160 <=? c) && (c <=? 255) then Some c
  else row_char 128 c
    [0x20AC; 0; 0x201A; 0x192; 0x201E; 0x2026; 0x2020; 0x2021; 0x2C6; 0x2030; 0x160; 0x2039; 0x152; 0; 0x17D; 0;
     0; 0x2018; 0x2019; 0x201C; 0x201D; 0x2022; 0x2013; 0x2014; 0x2DC; 0x2122; 0x161; 0x203A; 0x153; 0; 0x17E; 0x178].
(* the codes above 0o40 that have no character stand for the bullet *)
Definition winansi_bullet (c : Z) : Prop := c = 127 \/ c = 129 \/ c = 141 \/ c = 143 \/ c = 144 \/ c = 157.
(* MacRomanEncoding: printable ASCII, then this table.  0xCA is the nonbreaking space, 0xDB the
   sign of currencies *)
Definition macroman_char (c : Z) : option Z :=
  if (32 <=? c) && (c <=? 126) then Some c
  else row_char 128 c
    [0xC4; 0xC5; 0xC7; 0xC9; 0xD1; 0xD6; 0xDC; 0xE1; 0xE0; 0xE2; 0xE4; 0xE3; 0xE5; 0xE7; 0xE9; 0xE8;
     0xEA; 0xEB; 0xED; 0xEC; 0xEE; 0xEF; 0xF1; 0xF3; 0xF2; 0xF4; 0xF6; 0xF5; 0xFA; 0xF9; 0xFB; 0xFC;
     0x2020; 0xB0; 0xA2; 0xA3; 0xA7; 0x2022; 0xB6; 0xDF; 0xAE; 0xA9; 0x2122; 0xB4; 0xA8; 0; 0xC6; 0xD8;
     0; 0xB1; 0; 0; 0xA5; 0xB5; 0; 0; 0; 0; 0; 0xAA; 0xBA; 0; 0xE6; 0xF8;
     0xBF; 0xA1; 0xAC; 0; 0x192; 0; 0; 0xAB; 0xBB; 0x2026; 0xA0; 0xC0; 0xC3; 0xD5; 0x152; 0x153;
     0x2013; 0x2014; 0x201C; 0x201D; 0x2018; 0x2019; 0xF7; 0; 0xFF; 0x178; 0x2044; 0xA4; 0x2039; 0x203A; 0xFB01; 0xFB02;
     0x2021; 0xB7; 0x201A; 0x201E; 0x2030; 0xC2; 0xCA; 0xC1; 0xCB; 0xC8; 0xCD; 0xCE; 0xCF; 0xCC; 0xD3; 0xD4;
     0; 0xD2; 0xDA; 0xDB; 0xD9; 0x131; 0x2C6; 0x2DC; 0xAF; 0x2D8; 0x2D9; 0x2DA; 0xB8; 0x2DD; 0x2DB; 0x2C7].
(* StandardEncoding, the encoding of a font that says nothing, has typographic quotes: the two
   codes of ASCII that differ *)
Definition standard_quote (c u : Z) : Prop := c = 39 /\ u = 0x2019 \/ c = 96 /\ u = 0x2018.

(* a string whose bytes all have a character *)
Definition spells (chars : Z -> option Z) (raw text : list Z) : Prop := Forall2 (fun c u => chars c = Some u) raw text.
