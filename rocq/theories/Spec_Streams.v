(* Object streams and xref streams as any program may write them (ISO 32000, 7.5.7 and 7.5.8) *)
From Coq Require Import String.
From Verif Require Import PyBase Model_Filters Model_Objects Spec_Objects Spec_Api Spec_Syntax.

(* ---- object streams ---- *)
(* an object other than a stream or a reference *)
Definition member_text (o : obj) (v : bytes) : Prop :=
  (spelled o v /\ forall g n, o <> PRef g n) \/ (lit_tok v /\ o = PBytes v).
(* objects one after the other, with white space where they would run together *)
Inductive row_text : list obj -> bytes -> Prop :=
| rt_end w : Forall white w -> row_text [] w
| rt_more w v o l s : Forall white w -> member_text o v -> row_text l s ->
    closed o \/ (exists c r, s = c :: r /\ (white c \/ delim c)) -> row_text (o :: l) (w ++ v ++ s).
(* the numbers of the objects with their offsets, then the objects; first is where they start *)
Definition objects_text (l : list (Z * obj)) (first : Z) (data : bytes) : Prop :=
  exists offs hd bd, data = hd ++ bd /\ first = Z.of_nat (length hd) /\ length offs = length l /\
    row_text (flat_map (fun p => [PInt (fst (fst p)); PInt (snd p)]) (combine l offs)) hd /\ row_text (map snd l) bd.

(* ---- xref streams (ISO 32000, 7.5.8) ---- *)
(* the number that bytes denote, the most significant first *)
Inductive bytes_number : bytes -> Z -> Prop :=
| bn_nil : bytes_number [] 0
| bn_more s z c : bytes_number s z -> 0 <= c < 256 -> bytes_number (s ++ [c]) (256 * z + c).
(* the three fields of an entry, each of its own width *)
Record xrow := mk_xrow { xr_type : Z; xr_two : Z; xr_three : Z }.
Inductive rows_text (a b c : nat) : list xrow -> bytes -> Prop :=
| rw_nil : rows_text a b c [] []
| rw_more x s1 s2 s3 l s : length s1 = a -> length s2 = b -> length s3 = c ->
    bytes_number s1 (xr_type x) -> bytes_number s2 (xr_two x) -> bytes_number s3 (xr_three x) ->
    rows_text a b c l s -> rows_text a b c (x :: l) (s1 ++ s2 ++ s3 ++ s).
(* the numbers of an /Index array: first number and count, of each subsection *)
Inductive index_of : list obj -> list Z -> Prop :=
| ix_nil : index_of [] []
| ix_more first n l r : (0 < n)%nat -> index_of l r ->
    index_of (PInt first :: PInt (Z.of_nat n) :: l) (map (fun k => first + Z.of_nat k) (seq 0 n) ++ r).
(* an xref stream: the width of each field, the object numbers, the rows, one for each
   number or for the first ones.  Left out: a first field of width 0 and subsections of
   no entry (see C105) *)
Definition xstream_text (d : dict) (nums : list Z) (rows : list xrow) (data : bytes) : Prop :=
  exists a b c, (0 < a)%nat /\ dget (B "/W") d = Some (PList [PInt (Z.of_nat a); PInt (Z.of_nat b); PInt (Z.of_nat c)]) /\
    ((exists l, dget (B "/Index") d = Some (PList l) /\ index_of l nums) \/
     (exists n, (0 < n)%nat /\ dget (B "/Index") d = None /\ dget (B "/Size") d = Some (PInt (Z.of_nat n)) /\ nums = map Z.of_nat (seq 0 n))) /\
    rows_text a b c rows data /\ (length rows <= length nums)%nat.
(* the row x is that of object n *)
Definition xlists (nums : list Z) (rows : list xrow) (n : Z) (x : xrow) : Prop :=
  exists k, nth_error nums k = Some n /\ nth_error rows k = Some x.
(* what it says: number, free or not, object stream if any, place (or next free object),
   generation.  Rows of unknown types say nothing *)
Definition row_says (n : Z) (x : xrow) : list (Z * bool * option Z * Z * Z) :=
  if xr_type x =? 0 then [(n, true, None, xr_two x, xr_three x)]
  else if xr_type x =? 1 then [(n, false, None, xr_two x, xr_three x)]
  else if xr_type x =? 2 then [(n, false, Some (xr_two x), xr_three x, 0)] else [].
