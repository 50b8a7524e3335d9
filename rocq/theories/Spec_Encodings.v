(* Specification of the two ASCII encodings of the PDF format (ISO 32000-1, 7.4.2 and
   7.4.3), independent of the model: which texts stand for which bytes *)
From Verif Require Import PyBase.

(* the white space of the format: NUL, TAB, LF, FF, CR, SPACE *)
Definition format_white (x : Z) : bool :=
  (x =? 0) || (x =? 9) || (x =? 10) || (x =? 12) || (x =? 13) || (x =? 32).

(* [spaced w t s]: s is t with characters satisfying w added anywhere *)
Inductive spaced (w : Z -> bool) : bytes -> bytes -> Prop :=
| Sp_nil : spaced w [] []
| Sp_same x t s : spaced w t s -> spaced w (x :: t) (x :: s)
| Sp_white x t s : w x = true -> spaced w t s -> spaced w t (x :: s).

(* ---- ASCIIHex: pairs of digits of either case; a missing last digit is zero ---- *)
Definition hex_digit (v x : Z) : Prop :=
  0 <= v < 16 /\ (if v <? 10 then x = 48 + v else x = 55 + v \/ x = 87 + v).
Inductive hex_pairs : bytes -> bytes -> Prop :=
| Hp_nil : hex_pairs [] []
| Hp_cons h l a b c t : hex_digit h a -> hex_digit l b -> hex_pairs c t ->
    hex_pairs (16 * h + l :: c) (a :: b :: t).
Inductive hex_digits : bytes -> bytes -> Prop :=
| Hd_even c t : hex_pairs c t -> hex_digits c t
| Hd_odd c t h a : hex_pairs c t -> hex_digit h a -> hex_digits (c ++ [16 * h]) (t ++ [a]).
(* the digits, white space anywhere among them, then the mark of the end *)
Definition hex_data (c s : bytes) : Prop :=
  exists t u, hex_digits c t /\ spaced format_white t u /\ s = u ++ [62].

(* ---- ASCII85: four bytes are five digits in base 85, most significant first ---- *)
Definition big_endian (b : bytes) : Z := fold_left (fun v y => 256 * v + y) b 0.
Definition quintet (w : Z) (x : bytes) : Prop :=
  length x = 5%nat /\ Forall (fun y => 33 <= y <= 117) x /\
  fold_left (fun v y => 85 * v + (y - 33)) x 0 = w.
Inductive a85_groups : bytes -> bytes -> Prop :=
| Ag_end : a85_groups [] []
| Ag_zero c t : a85_groups c t -> a85_groups (0 :: 0 :: 0 :: 0 :: c) (122 :: t)
| Ag_word b x c t : length b = 4%nat -> big_endian b <> 0 -> quintet (big_endian b) x ->
    a85_groups c t -> a85_groups (b ++ c) (x ++ t)
| Ag_tail b x : (1 <= length b <= 3)%nat ->
    quintet (big_endian (b ++ repeat 0 (4 - length b))) x ->
    a85_groups b (firstn (length b + 1) x).
(* the groups, white space (w) anywhere among them, then the mark of the end *)
Definition a85_data (w : Z -> bool) (c s : bytes) : Prop :=
  exists t u, a85_groups c t /\ spaced w t u /\ s = u ++ [126; 62].

(* the white space the standard library skips: VT instead of NUL and FF *)
Definition common_white (x : Z) : bool := (x =? 9) || (x =? 10) || (x =? 13) || (x =? 32).

(* ---- predictors (ISO 32000-1, 7.4.4.4; RFC 2083, 6), one component of eight bits ---- *)
Definition paeth (left up upleft : Z) : Z :=
  let p := left + up - upleft in
  let a := Z.abs (p - left) in let b := Z.abs (p - up) in let c := Z.abs (p - upleft) in
  if (a <=? b) && (a <=? c) then left else if b <=? c then up else upleft.
(* the value a PNG filter predicts *)
Definition png_guess (tag left up upleft : Z) : Z :=
  if tag =? 1 then left else if tag =? 2 then up
  else if tag =? 3 then (left + up) / 2 else if tag =? 4 then paeth left up upleft else 0.
Fixpoint png_row (tag left upleft : Z) (row prev : bytes) : bytes :=
  match row, prev with
  | a :: r, b :: p => (a - png_guess tag left b upleft) mod 256 :: png_row tag a b r p
  | _, _ => []
  end.
Fixpoint png_encode (prev : bytes) (rows : list (Z * bytes)) : bytes :=
  match rows with
  | [] => []
  | (tag, r) :: rs => tag :: png_row tag 0 0 r prev ++ png_encode r rs
  end.
(* the TIFF predictor: the difference with the byte on the left *)
Fixpoint tiff_row (left : Z) (row : bytes) : bytes :=
  match row with [] => [] | a :: r => (a - left) mod 256 :: tiff_row a r end.
(* [predicted pr n rows s]: s holds the rows, of n bytes, under /Predictor pr *)
Definition predicted (pr : Z) (n : nat) (rows : list bytes) (s : bytes) : Prop :=
  Forall (fun r => length r = n /\ Forall (fun x => 0 <= x < 256) r) rows /\
  (pr = 1 /\ s = concat rows \/
   pr = 2 /\ s = concat (map (tiff_row 0) rows) \/
   10 <= pr <= 15 /\ exists tags, length tags = length rows /\ Forall (fun t => 0 <= t <= 4) tags /\
     s = png_encode (repeat 0 n) (combine tags rows)).
