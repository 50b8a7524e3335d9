(* Model of the table of the index (docstruct.py) *)
From Coq Require Import String.
From Verif Require Import PyBase Model_Filters Model_Objects Model_Filestruct Model_Text Model_Docstruct Model_Api Model_Print.

(* docstruct.py:418-420  envelope_objects; a set, here its elements with repetitions *)
Definition envelope_objects (d : doc) : res (list Z) :=
  let* row := last_row d in
  let* l := Model_Filestruct.map_res cell_env row in
  Ok (flat_map (fun o => match o with Some z => if z =? 0 then [] else [z] | None => [] end) l).

(* show: the text of an abs_pos (an int, or the float of an embedded object) *)
Section Show.
Context (show : apos -> bytes).

(* docstruct.py:84-85  o_gen o_ver doc_ver, abs_pos, env_num o_pos; the initial '' is None.  An
   absent abs_pos is shown and compared as '-', here Some None. *)
Record seen := mk_seen { s_ids : option Z * option Z * option Z; s_pos : option (option apos); s_env : option Z * option Z }.
Definition seen0 : seen := mk_seen (None, None, None) None (None, None).
Definition oz_eqb (a b : option Z) : bool := match a, b with Some x, Some y => x =? y | None, None => true | _, _ => false end.
Definition opos_eqb (a : option (option apos)) (b : option apos) : bool :=
  match a, b with Some (Some x), Some y => apos_eqb x y | Some None, None => true | _, _ => false end.
Definition ids_eqb (a b : option Z * option Z * option Z) : bool :=
  let '(g, v, w) := a in let '(g', v', w') := b in oz_eqb g g' && oz_eqb v v' && oz_eqb w w'.
Definition oz_text (o : option Z) : bytes := match o with Some z => dec z | None => [] end.
Definition opos_text (o : option apos) : bytes := match o with Some p => show p | None => B "-" end.
Definition ids_of (e : ient) : option Z * option Z * option Z := (Some (n_gen e), n_over e, n_dver e).
Definition ids_text (i : option Z * option Z * option Z) : bytes :=
  let '(g, v, w) := i in oz_text g ++ B "/" ++ oz_text v ++ B "/" ++ oz_text w.
(* docstruct.py:95-112 *)
Definition entry_cell (st : seen) (e : ient) : bytes * seen :=
  let '(c1, ids) := if n_del e then (B "Deleted ", s_ids st)
                    else if ids_eqb (ids_of e) (s_ids st) then (B "idem", s_ids st)
                    else (ids_text (ids_of e), ids_of e) in
  let '(c2, pos) := if opos_eqb (s_pos st) (n_pos e) then ([], s_pos st) else (B " " ++ opos_text (n_pos e), Some (n_pos e)) in
  let '(c3, env) := if oz_eqb (n_env e) (fst (s_env st)) && oz_eqb (n_opos e) (snd (s_env st)) then ([], s_env st)
                    else (B " " ++ oz_text (n_env e), (n_env e, n_opos e)) in
  (c1 ++ c2 ++ c3, mk_seen ids pos env).
(* docstruct.py:90-94 *)
Definition index_cell (st : seen) (s : slot) : res (bytes * seen) :=
  match s with
  | SNone | SList [] => Ok (B "idem", st)
  | SDict e | SList (SDict e :: _) => Ok (entry_cell st e)
  | SList (_ :: _) => Exc EAttributeError
  end.
(* docstruct.py:86-89, 113  the cells of the object i *)
Fixpoint object_cells (st : seen) (i : nat) (rows : list (list slot)) : res (list bytes) :=
  match rows with
  | [] => Ok []
  | r :: t =>
      match nth_error r i with
      | None => let* l := object_cells st i t in Ok (B "-" :: l)
      | Some s =>
          let* (c, st') := index_cell st s in
          let* l := object_cells st' i t in
          Ok (c :: l)
      end
  end.
(* docstruct.py:81, 114-115 *)
Fixpoint widen (ws : list nat) (cs : list bytes) : list nat :=
  match ws, cs with w :: ws', c :: cs' => Nat.max w (length c) :: widen ws' cs' | _, _ => ws end.
Definition widths_of (n : nat) (m : list (list bytes)) : list nat := fold_left widen m (repeat 1%nat n).
(* docstruct.py:118-119, 126-127, 138 *)
Fixpoint index_bars (ws : list nat) (cs : list bytes) : bytes :=
  match ws, cs with w :: ws', c :: cs' => B "| " ++ padr w c ++ B " " ++ index_bars ws' cs' | _, _ => [] end.
Definition label_width (compact : bool) : nat := if compact then 7%nat else 17%nat.
Definition label_text (compact : bool) (k : bytes) : bytes :=
  padr (label_width compact) k ++ (if compact then LF ++ repeat 32 (label_width compact) else []).
(* docstruct.py:116-120 *)
Fixpoint index_lines (compact : bool) (ws : list nat) (i : Z) (m : list (list bytes)) : bytes :=
  match m with
  | [] => []
  | cs :: r => padr (label_width compact) (dec i) ++ index_bars ws cs ++ LF ++ index_lines compact ws (i + 1) r
  end.
(* docstruct.py:133-137 *)
Definition first_cell (f : ient -> bytes) (r : list slot) : res bytes :=
  match r with
  | [] => Exc EIndexError
  | SList _ :: _ => Ok (B "multiple ")
  | SDict e :: _ => Ok (f e ++ B " ")
  | SNone :: _ => Exc EAttributeError
  end.
Definition dash (o : option Z) : bytes := match o with Some z => dec z | None => B "-" end.
Definition first_line (compact : bool) (ws : list nat) (rows : list (list slot)) (k : bytes) (f : ient -> bytes) : res bytes :=
  let* l := Model_Filestruct.map_res (first_cell f) rows in
  Ok (label_text compact k ++ index_bars ws l ++ LF).
(* docstruct.py:72-141  pprint_index *)
Definition pprint_index (compact : bool) (d : doc) : res bytes :=
  let rows := d_index d in
  let* row := last_row d in
  let* m := Model_Filestruct.map_res (fun i => object_cells seen0 i rows) (seq 0 (length row)) in
  let ws := widths_of (length rows) m in
  match m with
  | [] => Exc EIndexError
  | c0 :: r =>
      let* l1 := first_line compact ws rows (B "abs_pos") (fun e => opos_text (n_pos e)) in
      let* l2 := first_line compact ws rows (B "startxref_pos") (fun e => dash (n_sx e)) in
      let* l3 := first_line compact ws rows (B "xref_table_pos") (fun e => dash (n_xt e)) in
      let* l4 := first_line compact ws rows (B "xref_stream_pos") (fun e => dash (n_xs e)) in
      let* l5 := first_line compact ws rows (B "xref_stream_num") (fun e => dash (n_xsn e)) in
      Ok (index_lines compact ws 1 r ++ LF ++ label_text compact (B "0 (trailer)") ++ index_bars ws c0 ++ LF ++ l1 ++ l2 ++ l3 ++ l4 ++ l5)
  end.
End Show.
