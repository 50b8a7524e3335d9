(* Files with xref tables as any program may write them (ISO 32000, 7.5): one table, or
   several linked by /Prev, each followed by its trailer and startxref *)
From Coq Require Import String.
From Verif Require Import PyBase Model_Filters Model_Objects Spec_Objects Spec_Api Spec_Syntax.

(* ---- xref tables ---- *)
Definition line_break (e : bytes) : Prop := e = [10] \/ e = [13] \/ e = [13; 10].
Definition blanks (s : bytes) : Prop := Forall (fun c => c = 32) s.
Definition digits (s : bytes) : Prop := s <> [] /\ Forall decdigit s.

(* an entry: an offset, a generation, in use or free *)
Record tabent := mk_tabent { te_off : Z; te_gen : Z; te_use : bool }.
Inductive entry_text : tabent -> bytes -> Prop :=
| en_text a b k s e : digits a -> digits b -> blanks s -> line_break e ->
    entry_text (mk_tabent (decimal a) (decimal b) k) (a ++ [32] ++ b ++ [32] ++ [if k then 110 else 102] ++ s ++ e).
Inductive entry_lines : list tabent -> bytes -> Prop :=
| el_none : entry_lines [] []
| el_more x t l s : entry_text x t -> entry_lines l s -> entry_lines (x :: l) (t ++ s).
(* subsections: the number of the first object, the number of entries, the entries *)
Inductive subsections : list (Z * list tabent) -> bytes -> Prop :=
| ss_nil : subsections [] []
| ss_cons a b s1 s2 e es t l s : digits a -> digits b -> s1 <> [] -> blanks s1 -> blanks s2 -> line_break e ->
    decimal b = Z.of_nat (length es) -> entry_lines es t -> subsections l s ->
    subsections ((decimal a, es) :: l) (a ++ s1 ++ b ++ s2 ++ e ++ t ++ s).
(* the table and its trailer; the word trailer ends its line *)
Definition table_text (l : list (Z * list tabent)) (d : dict) (txt : bytes) : Prop :=
  exists e t s c w v, txt = B "xref" ++ e ++ t ++ B "trailer" ++ s ++ [c] ++ w ++ v /\
    line_break e /\ subsections l t /\ blanks s /\ (c = 10 \/ c = 13) /\ Forall white w /\ spelled (PDict d) v.
(* the table lists x for object n *)
Definition lists (l : list (Z * list tabent)) (n : Z) (x : tabent) : Prop :=
  exists first es k, In (first, es) l /\ nth_error es k = Some x /\ n = first + Z.of_nat k.

(* ---- files ---- *)
Record ftable := mk_ftable { ft_pos : nat; ft_list : list (Z * list tabent); ft_trailer : dict; ft_text : bytes }.
(* the table is in the file, before a startxref *)
Definition table_in (F : bytes) (s : ftable) : Prop :=
  table_text (ft_list s) (ft_trailer s) (ft_text s) /\ (0 < ft_pos s)%nat /\
  exists pre g post, F = pre ++ ft_text s ++ g ++ B "startxref" ++ post /\ length pre = ft_pos s /\ gap g.
(* tables, newest first: each is after the one that /Prev gives *)
Inductive linked : list ftable -> Prop :=
| lk_first s : dget (B "/Prev") (ft_trailer s) = None -> linked [s]
| lk_next s s' r : dget (B "/Prev") (ft_trailer s) = Some (PInt (Z.of_nat (ft_pos s'))) ->
    (ft_pos s' + length (ft_text s') <= ft_pos s)%nat -> linked (s' :: r) -> linked (s :: s' :: r).
(* the end of the file: where the newest table is, and the marker *)
Definition file_end (F : bytes) (pos : nat) : Prop :=
  exists b w1 ds w2 l, F = b ++ B "startxref" ++ w1 ++ ds ++ w2 ++ B "%%EOF" ++ l /\
    w1 <> [] /\ Forall white w1 /\ digits ds /\ decimal ds = Z.of_nat pos /\ w2 <> [] /\ Forall white w2 /\ Forall eol l /\
    (14 + length w1 + length ds + length w2 + length l <= 100 <= length F)%nat.
(* the object that the entry points at *)
Section WithZlib.
Context {ZL : Zlib}.
Definition object_in (F : bytes) (n : Z) (x : tabent) (o : obj) : Prop :=
  exists pre txt post, F = pre ++ txt ++ post /\ Z.of_nat (length pre) = te_off x /\ object_text n (te_gen x) o txt.
Record tabled_file (F : bytes) (ts : list ftable) : Prop := mk_tabled {
  tf_tables : Forall (table_in F) ts;
  tf_linked : linked ts;
  tf_trailers : Forall (fun s => dget (B "/XRefStm") (ft_trailer s) = None /\ wfv (PDict (ft_trailer s))) ts;
  tf_once : forall s n x y, In s ts -> lists (ft_list s) n x -> lists (ft_list s) n y -> te_use x = true -> te_use y = true -> x = y;
  tf_objects : forall s n x, In s ts -> lists (ft_list s) n x -> te_use x = true -> n <> 0 -> exists o, object_in F n x o;
  tf_end : exists s r, ts = s :: r /\ file_end F (ft_pos s);
  (* the newest table gives some object a new place *)
  tf_news : exists s r n x, ts = s :: r /\ lists (ft_list s) n x /\ te_use x = true /\ n <> 0 /\
    forall s' x', In s' r -> lists (ft_list s') n x' -> te_use x' = true -> te_off x' <> te_off x
}.
End WithZlib.
(* the entry of object n in the newest table that has it in use *)
Inductive newest : list ftable -> Z -> tabent -> Prop :=
| nw_here s r n x : lists (ft_list s) n x -> te_use x = true -> newest (s :: r) n x
| nw_older s r n x : (forall y, lists (ft_list s) n y -> te_use y = false) -> newest r n x -> newest (s :: r) n x.
