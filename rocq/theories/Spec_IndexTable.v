(* Specification vocabulary for the table of the index *)
From Coq Require Import String.
From Verif Require Import PyBase Model_Filters Model_Objects Model_Filestruct Model_Docstruct Model_Api.

Section Show.
Context (show : apos -> bytes).

(* the entry of the object i in a revision; the first one when the revision has several *)
Definition entry_in (i : nat) (r : list slot) : option ient :=
  match nth_error r i with Some (SDict e) => Some e | Some (SList (SDict e :: _)) => Some e | _ => None end.
(* e is the last element of l that satisfies P *)
Definition last_such (P : ient -> Prop) (l : list ient) (e : ient) : Prop :=
  exists a b, l = a ++ e :: b /\ P e /\ Forall (fun x => ~ P x) b.
Definition live (e : ient) : Prop := n_del e = false.
Definition number_shown (o : option Z) (t : bytes) : Prop := match o with Some z => t = dec z | None => t = [] end.
Definition place_shown (o : option apos) (t : bytes) : Prop := match o with Some p => t = show p | None => t = [45] end.

(* the first part: what the object is *)
Inductive state_shown (earlier : list ient) (e : ient) : bytes -> Prop :=
| Ss_deleted : n_del e = true -> state_shown earlier e (B "Deleted ")
| Ss_same e' : n_del e = false -> last_such live earlier e' -> n_gen e' = n_gen e -> n_over e' = n_over e -> n_dver e' = n_dver e ->
    state_shown earlier e (B "idem")
| Ss_new v w : n_del e = false ->
    (forall e', last_such live earlier e' -> ~ (n_gen e' = n_gen e /\ n_over e' = n_over e /\ n_dver e' = n_dver e)) ->
    number_shown (n_over e) v -> number_shown (n_dver e) w ->
    state_shown earlier e (dec (n_gen e) ++ [47] ++ v ++ [47] ++ w).
(* the second part: where it is *)
Inductive pos_shown (earlier : list ient) (e : ient) : bytes -> Prop :=
| Ps_same e' : last_such (fun _ => True) earlier e' -> n_pos e' = n_pos e -> pos_shown earlier e []
| Ps_new t : (forall e', last_such (fun _ => True) earlier e' -> n_pos e' <> n_pos e) -> place_shown (n_pos e) t ->
    pos_shown earlier e ([32] ++ t).
(* the third part: the object stream that holds it *)
Inductive env_shown (earlier : list ient) (e : ient) : bytes -> Prop :=
| Es_same e' : last_such (fun _ => True) earlier e' -> n_env e' = n_env e -> n_opos e' = n_opos e -> env_shown earlier e []
| Es_none : earlier = [] -> n_env e = None -> n_opos e = None -> env_shown earlier e []
| Es_new t : (forall e', last_such (fun _ => True) earlier e' -> ~ (n_env e' = n_env e /\ n_opos e' = n_opos e)) ->
    (earlier = [] -> ~ (n_env e = None /\ n_opos e = None)) -> number_shown (n_env e) t ->
    env_shown earlier e ([32] ++ t).

(* the cells of the object i, one for each revision; earlier: its entries in the revisions before *)
Inductive cells_shown (i : nat) : list ient -> list (list slot) -> list bytes -> Prop :=
| Ix_nil earlier : cells_shown i earlier [] []
| Ix_absent earlier r rows cs : (length r <= i)%nat -> cells_shown i earlier rows cs -> cells_shown i earlier (r :: rows) ([45] :: cs)
| Ix_empty earlier r rows cs : (i < length r)%nat -> entry_in i r = None -> cells_shown i earlier rows cs ->
    cells_shown i earlier (r :: rows) (B "idem" :: cs)
| Ix_entry earlier r e rows a b c cs : entry_in i r = Some e -> state_shown earlier e a -> pos_shown earlier e b -> env_shown earlier e c ->
    cells_shown i (earlier ++ [e]) rows cs -> cells_shown i earlier (r :: rows) ((a ++ b ++ c) :: cs).

(* the line k of the trailer: one cell for each revision *)
Definition first_shown (P : ient -> bytes -> Prop) (r : list slot) (t : bytes) : Prop :=
  match nth_error r 0 with Some (SDict e) => P e t | Some (SList _) => t = B "multiple" | _ => False end.
Definition dashed (o : option Z) (t : bytes) : Prop := match o with Some z => t = dec z | None => t = [45] end.

(* a cell of w columns or more *)
Definition column (w : nat) (t : bytes) : bytes := t ++ repeat 32 (w - length t).
Fixpoint columns (ws : list nat) (cs : list bytes) : bytes :=
  match ws, cs with w :: ws', c :: cs' => [124; 32] ++ column w c ++ [32] ++ columns ws' cs' | _, _ => [] end.
Definition label (compact : bool) : nat := if compact then 7%nat else 17%nat.
Fixpoint numbered_lines (compact : bool) (ws : list nat) (i : Z) (m : list (list bytes)) : bytes :=
  match m with [] => [] | cs :: r => column (label compact) (dec i) ++ columns ws cs ++ [10] ++ numbered_lines compact ws (i + 1) r end.
Definition named_line (compact : bool) (ws : list nat) (k : bytes) (cs : list bytes) : bytes :=
  column (label compact) k ++ (if compact then [10] ++ repeat 32 7 else []) ++ columns ws cs ++ [10].
(* each column has the width of its widest cell *)
Record fitted (m : list (list bytes)) (ws : list nat) : Prop := mk_fitted {
  fi_cells : forall cs, In cs m -> Forall2 (fun c w => (length c <= w)%nat) cs ws;
  fi_tight : forall j w, nth_error ws j = Some w -> w = 1%nat \/ exists cs c, In cs m /\ nth_error cs j = Some c /\ length c = w
}.

(* every cell of the index that is read holds an entry, possibly several in the cell of the trailer *)
Record printable (d : doc) (last : list slot) : Prop := mk_printable {
  pr_last : exists l, d_index d = l ++ [last];
  pr_first : forall r, In r (d_index d) -> exists s, nth_error r 0 = Some s /\ s <> SNone;
  pr_lists : forall r s l, In r (d_index d) -> In s r -> s = SList l -> l = [] \/ exists e l', l = SDict e :: l'
}.
End Show.
