(* Model of pdfsyntax/layout.py and of extract_page_text (api.py) after the fonts and the
   contents of the page have been fetched.
   Simplifications: numbers are exact rationals (Qc) instead of ints and binary floats;
   list.sort is a stable insertion sort; a dictionary keyed by numbers is an association
   list in the order of insertion. *)
From Coq Require Import String QArith Qround Qcanon.
From Verif Require Import PyBase Model_Filters Model_Objects Model_Text Model_Graphics.
Open Scope Z_scope.

(* layout.py:60 : {'x', 'y', 'width', 'scaling', 'text'} *)
Record tblock := mk_tb { tb_x : Qc; tb_y : Qc; tb_w : Qc; tb_s : Qc; tb_text : bytes }.
(* layout.py:52-61  simplify_horizontal_text_elements *)
Definition simplify (tfs : list (mat * bytes * mat)) : list tblock :=
  map (fun tz => let '(old, uc, new) := tz in
                 mk_tb (me old) (mf old) (me new - me old)%Qc (ma old) uc) tfs.

Definition q_eqb (x y : Qc) : bool := if Qc_eq_dec x y then true else false.
Definition q_ltb (x y : Qc) : bool := negb (q_leb y x).
(* x // y rounded down; the divisor is not zero *)
Definition q_floordiv (x y : Qc) : Z := Qfloor (this (x / y)%Qc).
Definition q_abs (x : Qc) : Qc := if q_ltb x (qc 0) then (- x)%Qc else x.

(* list.sort(key=k), stable *)
Fixpoint sort_ins {A} (k : A -> Qc) (x : A) (l : list A) : list A :=
  match l with
  | [] => [x]
  | y :: r => if q_leb (k x) (k y) then x :: l else y :: sort_ins k x r
  end.
Fixpoint sort_by {A} (k : A -> Qc) (l : list A) : list A :=
  match l with [] => [] | x :: r => sort_ins k x (sort_by k r) end.

(* dictionaries keyed by numbers *)
Fixpoint q_add (k : Qc) (n : Z) (d : list (Qc * Z)) : list (Qc * Z) :=
  match d with
  | [] => [(k, n)]
  | (j, m) :: r => if q_eqb k j then (j, m + n) :: r else (j, m) :: q_add k n r
  end.
(* layout.py:64-72  most_frequent *)
Fixpoint most_frequent_from (best : Qc) (occ : Z) (d : list (Qc * Z)) : Qc :=
  match d with
  | [] => best
  | (s, n) :: r => if occ <? n then most_frequent_from s n r else most_frequent_from best occ r
  end.
Definition most_frequent (d : list (Qc * Z)) : Qc := most_frequent_from (qc 0) 0 d.

(* layout.py:75-84  typical_font_size *)
Fixpoint size_distrib (d : list (Qc * Z)) (l : list tblock) : list (Qc * Z) :=
  match l with
  | [] => d
  | b :: r => size_distrib (q_add (tb_s b) (Z.of_nat (length (tb_text b))) d) r
  end.
Definition typical_font_size (l : list tblock) : Qc := most_frequent (size_distrib [] l).

(* layout.py:87-93  minimum_x *)
Fixpoint minimum_from (m : Qc) (l : list tblock) : Qc :=
  match l with
  | [] => m
  | b :: r => minimum_from (if q_eqb m (qc (-1)) || q_ltb (tb_x b) m then tb_x b else m) r
  end.
Definition minimum_x (l : list tblock) : Qc := minimum_from (qc (-1)) l.

(* layout.py:96-121  typical_line_spacing *)
Fixpoint col_add (x y : Qc) (c : list (Qc * list Qc)) : list (Qc * list Qc) :=
  match c with
  | [] => [(x, [y])]
  | (j, l) :: r => if q_eqb x j then (j, l ++ [y]) :: r else (j, l) :: col_add x y r
  end.
Fixpoint columns_of (fs : Qc) (c : list (Qc * list Qc)) (l : list tblock) : list (Qc * list Qc) :=
  match l with
  | [] => c
  | b :: r => if q_eqb (tb_s b) fs then columns_of fs (col_add (tb_x b) (tb_y b) c) r else columns_of fs c r
  end.
(* int((b - a) * 10) / 10 for the consecutive elements *)
Fixpoint deltas (d : list (Qc * Z)) (l : list Qc) : list (Qc * Z) :=
  match l with
  | a :: ((b :: _) as r) => deltas (q_add (qc (q_int ((b - a) * qc 10)%Qc) / qc 10)%Qc 1 d) r
  | _ => d
  end.
Fixpoint delta_distrib (d : list (Qc * Z)) (c : list (Qc * list Qc)) : list (Qc * Z) :=
  match c with
  | [] => d
  | (_, l) :: r =>
      if (length l <? 3)%nat then delta_distrib d r
      else delta_distrib (deltas d (sort_by (fun y => y) l)) r
  end.
Definition typical_line_spacing (l : list tblock) (fs : Qc) : Qc :=
  let tls := most_frequent (delta_distrib [] (columns_of fs [] l)) in
  if q_eqb tls (qc 0) then fs else tls.

(* layout.py:124-134  typical_char_width *)
Fixpoint width_distrib (fs : Qc) (l : list tblock) : list Qc :=
  match l with
  | [] => []
  | b :: r =>
      if negb (q_eqb (tb_s b) fs) || (length (tb_text b) <? 2)%nat then width_distrib fs r
      else (tb_w b / qc (Z.of_nat (length (tb_text b))))%Qc :: width_distrib fs r
  end.
Definition typical_char_width (l : list tblock) (fs : Qc) : Qc :=
  let d := width_distrib fs l in
  match d with
  | [] => qc 0
  | _ => (fold_left Qcplus d (qc 0) / qc (Z.of_nat (length d)))%Qc
  end.

(* layout.py:4-5 *)
Definition MIN_SEP_DISTANCE : Qc := qc 5.
Definition NEWLINE_COEFF : Qc := qc 3.

(* layout.py:29-32 : the blocks of the same line are popped *)
Fixpoint pop_line (y limit : Qc) (l : list tblock) : list tblock * list tblock :=
  match l with
  | [] => ([], [])
  | b :: r =>
      if q_ltb limit (q_abs (y - tb_y b)%Qc) then ([], l)
      else let (a, c) := pop_line y limit r in (b :: a, c)
  end.
(* (int(x) - min_x) // char_w, then int() *)
Definition column (min_x cw x : Qc) : res Z :=
  if q_eqb cw (qc 0) then Exc EZeroDivision else Ok (q_floordiv (qc (q_int x) - min_x)%Qc cw).
(* layout.py:39-46 *)
Fixpoint line_rest (min_x cw : Qc) (prev : tblock) (s : bytes) (l : list tblock) : res bytes :=
  match l with
  | [] => Ok s
  | b :: r =>
      let* s :=
        (if q_ltb (tb_x prev + tb_w prev + MIN_SEP_DISTANCE)%Qc (tb_x b) then
           let* n := column min_x cw (tb_x b) in
           Ok (s ++ repeat 32 (Z.to_nat (n - Z.of_nat (length s))))
         else Ok s) in
      line_rest min_x cw b (s ++ tb_text b) r
  end.
(* layout.py:34-46 *)
Definition line_string (min_x cw : Qc) (items : list tblock) : res bytes :=
  match sort_by tb_x items with
  | [] => Exc EIndexError
  | b :: r =>
      let* n := column min_x cw (tb_x b) in
      line_rest min_x cw b (repeat 32 (Z.to_nat n) ++ tb_text b) r
  end.
(* layout.py:18, 23-25 : previous_y = -1 at first *)
Definition inter_lines (previous_y y spacing : Qc) : res Z :=
  if q_eqb previous_y (qc (-1)) then Ok 0
  else if q_eqb spacing (qc 0) then Exc EZeroDivision
  else Ok (q_int ((previous_y - y - spacing / NEWLINE_COEFF) / spacing)%Qc).
(* layout.py:19-48 : the loop; each step pops at least one block, fuel is their number *)
Fixpoint layout_loop (fuel : nat) (min_x cw spacing previous_y : Qc) (l : list tblock) (out : bytes) : res bytes :=
  match l with
  | [] => Ok out
  | b :: r =>
      match fuel with
      | O => Loop
      | S f =>
          let* k := inter_lines previous_y (tb_y b) spacing in
          let out := out ++ repeat 10 (Z.to_nat k) in
          let (same, rest) := pop_line (tb_y b) (spacing * (qc 9 / qc 10))%Qc r in
          let* s := line_string min_x cw (b :: same) in
          let out := if beqb s [32] then out else out ++ s ++ [10] in
          layout_loop f min_x cw spacing (tb_y b) rest out
      end
  end.
(* layout.py:8-49  basic_spatial_layout *)
Definition basic_spatial_layout (blocks : list tblock) : res bytes :=
  let l := sort_by (fun b => - tb_y b)%Qc blocks in
  let fs := typical_font_size l in
  layout_loop (length l) (minimum_x l) (typical_char_width l fs) (typical_line_spacing l fs) (qc (-1)) l [].

(* api.py:373-384  extract_page_text, given the contents and the fonts of the page *)
Definition page_text `{ZL : Zlib} (contents : list obj) (fonts : fonts_t) : res bytes :=
  let* tfs := build_text_fragments contents fonts in
  basic_spatial_layout (simplify tfs).
