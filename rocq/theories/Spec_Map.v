(* What the sequential map of a file says of each region (filestruct.py:108-157), and the
   members of the object streams of a revision (docstruct.py:380-390) *)
From Coq Require Import String.
From Verif Require Import PyBase Model_Filters Model_Objects Model_Docstruct Model_Filestruct.
Import ListNotations.
Open Scope Z_scope.

(* -- the lines of a table: the subsection headers are counted from 0, the entries of each from 0 -- *)
Definition is_header (l : xline) : Prop := exists a b, l = XSub a b.
Inductive headers : list xline -> Z -> Prop :=
| hd_nil : headers [] 0
| hd_sub a b l n : headers l n -> headers (XSub a b :: l) (n + 1)
| hd_ent off num gen kw l n : headers l n -> headers (XEnt off num gen kw :: l) n.
Definition table_places (ls : list xline) (rp : list (option (Z * Z))) : Prop :=
  length rp = length ls /\ (ls = [] \/ exists a b r, ls = XSub a b :: r) /\
  (forall k a b, nth_error ls k = Some (XSub a b) -> nth_error rp k = Some None) /\
  (forall pre a b mid off num gen kw post n, ls = pre ++ XSub a b :: mid ++ XEnt off num gen kw :: post ->
     Forall (fun l => ~ is_header l) mid -> headers pre n ->
     num = a + Z.of_nat (length mid) /\ nth_error rp (length pre + S (length mid)) = Some (Some (n, Z.of_nat (length mid)))).

(* -- the lines of an xref stream: the rank of a line among those of its section -- *)
Definition stream_places (tab : list (xsline * (Z * Z))) : Prop :=
  forall pre mid x p post, tab = pre ++ mid ++ (x, p) :: post ->
    Forall (fun y => xs_sec (fst y) = xs_sec x) mid ->
    (pre = [] \/ exists pre' y, pre = pre' ++ [y] /\ xs_sec (fst y) <> xs_sec x) ->
    p = (xs_sec x, Z.of_nat (length mid)).

Section WithZlib.
Context {ZL : Zlib}.

Definition typed (o : indobj) (ty : bytes) (d : dict) (s : option bytes) : Prop :=
  exists e, i_obj o = PStream d s e /\ dget K_Type d = Some (PStr ty).
(* what the map holds for one region *)
Inductive mapped : region -> list item -> Prop :=
| mp_table x rp : table_places (xt_lines x) rp -> mapped (RXref x) [ItReg (RXref x) rp]
| mp_xref o d s lines tab : typed o V_XRef d s -> parse_xref_stream_raw d s = Ok lines -> map fst tab = lines ->
    stream_places tab -> mapped (RInd o) [ItReg (RInd o) []; ItXS (i_beg o) d tab]
| mp_objstm o d s es its : typed o V_ObjStm d s -> parse_object_stream d s (i_num o) = Ok es -> length its = length es ->
    (forall j e, nth_error es j = Some e -> exists b, i_beg o = Some b /\ nth_error its j = Some (ItEmb b j e)) ->
    mapped (RInd o) (ItReg (RInd o) [] :: its)
| mp_plain r : (forall x, r <> RXref x) -> (forall o d s, r = RInd o -> ~ typed o V_XRef d s /\ ~ typed o V_ObjStm d s) ->
    mapped r [ItReg r []].
End WithZlib.

(* -- object i is said to be in object stream z by the current row of the index -- *)
Definition member (row : list slot) (z i : Z) : Prop :=
  exists k e, nth_error row k = Some (SDict e) /\ i = Z.of_nat k /\ n_env e = Some z /\ z <> 0.
Definition ascending_list (l : list Z) : Prop :=
  forall i j x y, (i < j)%nat -> nth_error l i = Some x -> nth_error l j = Some y -> x < y.
