(* Specification of the text of a page: lines, rows and columns *)
From Coq Require Import QArith Qround Qcanon Sorted Permutation.
From Verif Require Import PyBase Model_Graphics Model_Layout.
Open Scope Z_scope.

(* the characters that leave ink *)
Definition ink (s : bytes) : bytes := filter (fun c => negb ((c =? 32) || (c =? 10))) s.

(* number of characters written with a size *)
Definition chars (l : list tblock) (s : Qc) : nat :=
  list_sum (map (fun b => if Qc_eq_dec (tb_s b) s then length (tb_text b) else 0%nat) l).
(* a size with which no less characters are written than with any other *)
Definition dominant (l : list tblock) (s : Qc) : Prop := forall s', (chars l s' <= chars l s)%nat.

(* the average width of a character, over the blocks of size s with two characters or more *)
Definition usable (s : Qc) (b : tblock) : bool :=
  (if Qc_eq_dec (tb_s b) s then true else false) && (2 <=? length (tb_text b))%nat.
Definition qsum (l : list Qc) : Qc := fold_right Qcplus (qc 0) l.
Definition average_width (l : list tblock) (s cw : Qc) : Prop :=
  let m := filter (usable s) l in
  m <> [] /\ (cw * qc (Z.of_nat (length m)) = qsum (map (fun b => tb_w b / qc (Z.of_nat (length (tb_text b)))) m))%Qc.

(* the distance between lines: that of two blocks of size s, one above the other, in tenths
   rounded down, or the size itself *)
Definition line_distance (l : list tblock) (s sp : Qc) : Prop :=
  sp = s \/
  exists a b, In a l /\ In b l /\ tb_s a = s /\ tb_s b = s /\ tb_x a = tb_x b /\ (tb_y a <= tb_y b)%Qc /\
    (sp * qc 10 = qc (Qfloor (this ((tb_y b - tb_y a) * qc 10))))%Qc.

(* least abscissa *)
Definition margin (l : list tblock) (mx : Qc) : Prop :=
  (exists b, In b l /\ tb_x b = mx) /\ Forall (fun b => mx <= tb_x b)%Qc l.

(* blocks grouped in lines: from top to bottom, and from left to right in a line; the blocks
   of a line are close to its highest one, and those of the lines below are not *)
Definition top (line : list tblock) (y : Qc) : Prop :=
  (exists b, In b line /\ tb_y b = y) /\ Forall (fun b => tb_y b <= y)%Qc line.
Definition in_lines (sp : Qc) (blocks : list tblock) (lines : list (list tblock)) : Prop :=
  Permutation blocks (concat lines) /\
  Forall (StronglySorted (fun a b => tb_x a <= tb_x b)%Qc) lines /\
  Forall (fun line => exists y, top line y) lines /\
  Forall (fun line => forall y b, top line y -> In b line -> (y - tb_y b <= sp * (qc 9 / qc 10))%Qc \/ line = [b]) lines /\
  StronglySorted (fun line below => forall y b, top line y -> In b below -> (sp * (qc 9 / qc 10) < y - tb_y b)%Qc /\
                                      forall a, In a line -> (tb_y b <= tb_y a)%Qc) lines.

(* a row: each block stands at its column or, when there is no gap before it or when this
   column is passed already, right after the previous one *)
Definition spaces (n : Z) : bytes := repeat 32 (Z.to_nat n).
Definition col_of (mx cw x : Qc) : Z := Qfloor (this ((qc (Z.quot (Qnum (this x)) (Zpos (Qden (this x)))) - mx) / cw)%Qc).
Inductive row (mx cw : Qc) : list tblock -> bytes -> Prop :=
| row_one b : row mx cw [b] (spaces (col_of mx cw (tb_x b)) ++ tb_text b)
| row_gap l p b s : row mx cw (l ++ [p]) s -> (tb_x p + tb_w p + qc 5 < tb_x b)%Qc ->
    row mx cw (l ++ [p; b]) (s ++ spaces (col_of mx cw (tb_x b) - Z.of_nat (length s)) ++ tb_text b)
| row_near l p b s : row mx cw (l ++ [p]) s -> ~ (tb_x p + tb_w p + qc 5 < tb_x b)%Qc ->
    row mx cw (l ++ [p; b]) (s ++ tb_text b).

(* the rows one under the other; further apart, empty lines in between *)
Definition blank_lines (sp y y' : Qc) : bytes :=
  repeat 10 (Z.to_nat (q_int ((y - y' - sp / qc 3) / sp)%Qc)).
Definition printed (s : bytes) : bytes := if beqb s [32] then [] else s ++ [10].
Inductive page (sp : Qc) : list (list tblock) -> list bytes -> bytes -> Prop :=
| page_one l s : page sp [l] [s] (printed s)
| page_more l l' ls s rs out y y' : top l y -> top l' y' -> page sp (l' :: ls) rs out ->
    page sp (l :: l' :: ls) (s :: rs) (printed s ++ blank_lines sp y y' ++ out).
