(* Model of the command disasm (cli.py:90-347): the lines of the listing and their columns *)
From Coq Require Import String.
From Verif Require Import PyBase Model_Filters Model_Objects Model_Filestruct.
Open Scope Z_scope.

(* the values of a line; a key that is absent is the empty text, or None for the columns
   'pos', 'size' and 'addr' *)
Inductive dcell := DNone | DInt (z : Z) | DStr (s : bytes).
Record dline := mk_dline {
  l_macro : bytes; l_pos : option Z; l_size : option Z; l_ratio : bytes; l_filters : bytes; l_seq : option Z; l_env : bytes;
  l_st : bytes; l_region : bytes; l_iref : bytes; l_mode : bytes; l_addr : option Z; l_cl : bytes; l_detail : bytes }.
Definition oint (o : option Z) : dcell := match o with Some z => DInt z | None => DNone end.
(* cli.py:145-160, the order of the columns; seq_num is '' when it is not a number *)
Definition cells (l : dline) : list dcell :=
  [DStr (l_macro l); oint (l_pos l); oint (l_size l); DStr (l_ratio l); DStr (l_filters l);
   match l_seq l with Some z => DInt z | None => DStr [] end; DStr (l_env l); DStr (l_st l); DStr (l_region l); DStr (l_iref l);
   DStr (l_mode l); oint (l_addr l); DStr (l_cl l); DStr (l_detail l)].
Inductive ckind := CPos | CSize | COther.
Definition KINDS : list ckind := [COther; CPos; CSize; COther; COther; COther; COther; COther; COther; COther; COther; CPos; COther; COther].

(* cli.py:161-173 (columns_mode VARIABLE): the logarithm of a negative number raises.
   Simplification: int(math.log10(f)) + 1 is the exact number of digits *)
Definition cell_width (c : dcell) : res nat :=
  match c with
  | DInt z => if z <? 0 then Exc EValueError else Ok (length (dec z))
  | DStr s => Ok (length s)
  | DNone => Ok 0%nat
  end.
Fixpoint widen (ws : list nat) (cs : list dcell) : res (list nat) :=
  match ws, cs with
  | w :: ws', c :: cs' => let* n := cell_width c in let* t := widen ws' cs' in Ok (Nat.max w n :: t)
  | _, _ => Ok ws
  end.
Fixpoint widths_for (ws : list nat) (ls : list dline) : res (list nat) :=
  match ls with [] => Ok ws | l :: r => let* ws1 := widen ws (cells l) in widths_for ws1 r end.
(* cli.py:174-189 *)
Definition ljust (w : nat) (s : bytes) : bytes := s ++ repeat 32 (w - length s).
Definition rjust (w : nat) (s : bytes) : bytes := repeat 32 (w - length s) ++ s.
Definition cell_text (k : ckind) (w : nat) (c : dcell) : bytes :=
  match k, c with
  | CPos, DInt z => pad0 w z ++ [32]
  | CPos, _ => repeat 32 (w + 1)
  | CSize, DInt z => [91] ++ ljust w (dec z) ++ [93; 32]
  | CSize, _ => repeat 32 (w + 3)
  | COther, DStr s => ljust w s ++ [32]
  | COther, DInt z => rjust w (dec z) ++ [32]
  | COther, DNone => ljust w [] ++ [32]
  end.
Fixpoint line_text (ks : list ckind) (ws : list nat) (cs : list dcell) : bytes :=
  match ks, ws, cs with
  | k :: ks', w :: ws', c :: cs' => cell_text k w c ++ line_text ks' ws' cs'
  | _, _, _ => []
  end.
(* cli.py:143-190  print_disasm_columns: what is printed *)
Definition print_lines (ls : list dline) : res bytes :=
  let* ws := widths_for (repeat 1%nat 14) ls in
  Ok (flat_map (fun l => line_text KINDS ws (cells l) ++ [10]) ls).

(* ---- the lines ---- *)
Definition decode_ascii (b : bytes) : res bytes := if forallb (fun c => c <? 128) b then Ok b else Exc EUnicodeError.
Definition hex_lower (s : bytes) : bytes := flat_map (fun c => [hexdig_l (c / 16 mod 16); hexdig_l (c mod 16)]) s.
(* cli.py:212-221, the detail of a comment *)
Definition comment_detail (c : bytes) : res bytes :=
  if beqb (firstn 4 c) (B "%PDF") then decode_ascii (firstn 8 c)
  else if beqb (firstn 5 c) (B "%%EOF") then decode_ascii (firstn 5 c)
  else match decode_ascii (firstn 10 c) with
       | Ok t => Ok t
       | _ => Ok (B "<" ++ hex_lower (firstn 10 c) ++ B ">")
       end.
(* cli.py:113-140  filters_in_line *)
Definition filter_short (o : obj) : bytes :=
  match o with
  | PStr s =>
      if beqb s (B "/ASCIIHexDecode") then B "_AHex" else if beqb s (B "/ASCII85Decode") then B "_A85"
      else if beqb s (B "/LZWDecode") then B "_LZW" else if beqb s (B "/FlateDecode") then B "_Flate"
      else if beqb s (B "/RunLengthDecode") then B "_RunL" else if beqb s (B "/CCITTFaxDecode") then B "_Fax"
      else if beqb s (B "/JBIG2Decode") then B "_JBIG2" else if beqb s (B "/DCTDecode") then B "_DCT"
      else if beqb s (B "/JPXDecode") then B "_JPX" else if beqb s (B "/Crypt") then B "_Crypt" else B "_"
  | _ => B "_"
  end.
Definition filters_in_line (o : obj) : bytes :=
  match o with PList l => flat_map filter_short l | _ => filter_short o end.

Section Lines.
(* how Python formats a value in an f-string *)
Context (show : obj -> bytes).
(* cli.py:90-110  keys_in_line; a target that is no dictionary raises (simplification:
   TypeError) *)
Fixpoint keys_text (d : dict) (keys : list bytes) : bytes :=
  match keys with
  | [] => []
  | k :: r =>
      (match dget k d with
       | None | Some PNone => []
       | Some (PRef g n) => k ++ [61] ++ dec n ++ [44] ++ dec g ++ [32; 32]
       | Some v => k ++ [61] ++ show v ++ [32; 32]
       end) ++ keys_text d r
  end.
Definition keys_in_line (o : obj) (keys : list bytes) : res bytes :=
  match o with
  | PDict d =>
      Ok ((match dget K_Type d with None | Some PNone => [] | Some v => show v ++ [32; 32] end)
          ++ (if dhas (B "/JS") d then B "!/JS!  " else []) ++ keys_text d keys)
  | _ => Exc ETypeError
  end.
(* cli.py:295-319, what the object of a line is: class, detail, ratio, filters.
   Simplification: the ratio is the exact one, rounded down *)
Definition obj_info (o : obj) : res (bytes * bytes * bytes * bytes) :=
  match o with
  | PDict _ => let* t := keys_in_line o [K_Linearized] in Ok (B "dict", t, [], [])
  | PStream d s e =>
      let* t := keys_in_line (PDict d) [B "/Root"; K_Prev; K_N; K_First] in
      let* s := of_opt ETypeError s in
      let* r := (match s with
                 | [] => Ok (B "!!")
                 | _ => let* e := of_opt ETypeError e in Ok (dec (blen e * 100 / blen s) ++ [37])
                 end) in
      Ok (B "stream", t, r, filters_in_line (match dget K_Filter d with Some f => f | None => PNone end))
  | PList _ => Ok (B "array", [], [], [])
  | PInt _ => Ok (B "int", [], [], [])
  | _ => Ok (B "other", [], [], [])
  end.
(* the addresses of wrong targets at a position *)
Definition key_addr (k : okey) : option Z :=
  match k with KDir _ _ (AInt z) => Some z | KDir _ _ _ => None | KEmb _ _ z => Some z end.
Fixpoint oget {A} (k : option Z) (l : list (option Z * A)) : option A :=
  match l with [] => None | (k', v) :: r => if oz_eqb k k' then Some v else oget k r end.
Definition wrong_at (wrong : list (option Z * list okey)) (pos : option Z) : list Z :=
  match oget pos wrong with
  | Some ks => flat_map (fun k => match key_addr k with Some z => [z] | None => [] end) ks
  | None => []
  end.
Definition mem (z : Z) (l : list Z) : bool := existsb (Z.eqb z) l.
Definition entry_st (wt : list Z) (addr : Z) : bytes := if mem addr wt then B "-?" else B "-@".
(* cli.py:246-267 *)
Definition table_entry (wt : list Z) (x : xline) : list dline :=
  match x with
  | XSub _ _ => []
  | XEnt off num gen kw =>
      [mk_dline (B "-") None None [] [] None [] (entry_st wt off) (B "xref") (dec num ++ [44] ++ dec gen) [] (Some off)
         (if beqb kw [110] then B "inuse" else B "free") []]
  end.
(* cli.py:327-346 *)
Definition stream_entry (wt : list Z) (x : xsline) : dline :=
  mk_dline (B "-") None None [] [] None [] (entry_st wt (xs_off x)) (B "xref") (dec (xs_num x) ++ [44] ++ dec (xs_gen x))
    (match xs_env x with None => B "abs" | Some e => dec e ++ [44] end) (Some (xs_off x)) (if xs_free x then B "free" else B "inuse") [].
Definition plus (pos size : option Z) (ty : bytes) (addr : option Z) (detail : bytes) : dline :=
  mk_dline (B "+") pos size [] [] None [] [] ty [] [] addr [] detail.
Definition oz (o : option nat) : option Z := option_map Z.of_nat o.
Definition size_of (b : option nat) (e : nat) : option Z := option_map (fun b => Z.of_nat e - Z.of_nat b) b.
(* cli.py:202-346, the lines of a section; t is the file *)
Definition item_lines (t : bytes) (wrong : list (option Z * list okey)) (unindexed : list okey) (x : item) : res (list dline) :=
  match x with
  | ItReg (RComment b e) _ => let* c := comment_detail (sub t b e) in Ok [plus (oz (Some b)) (size_of (Some b) e) (B "comment") None c]
  | ItReg (RStartxref b e v) _ => let* n := of_opt EValueError (py_int 10 v) in Ok [plus (oz (Some b)) (size_of (Some b) e) (B "startxref") (Some n) []]
  | ItReg (RXref x) _ =>
      let* c := (match xt_trailer x with
                 | PDict d => keys_in_line (PDict d) (if dhas (B "/XRefStm") d then [B "/XRefStm"; K_Prev] else [B "/Root"; K_Prev])
                 | _ => Exc ETypeError
                 end) in
      let wt := wrong_at wrong (Some (Z.of_nat (xt_beg x))) in
      Ok (plus (oz (Some (xt_beg x))) (size_of (Some (xt_beg x)) (xt_end x)) (B "xreftable") None c :: flat_map (table_entry wt) (xt_lines x))
  | ItReg (RInd o) _ =>
      let lost := match i_beg o with
                  | Some b => mem (Z.of_nat b) (flat_map (fun k => match k with KDir _ _ (AInt z) => [z] | _ => [] end) unindexed)
                  | None => false
                  end in
      let* (cl, t, r, f) := obj_info (i_obj o) in
      Ok [mk_dline (B "+") (oz (i_beg o)) (size_of (i_beg o) (i_end o)) r f None [] (if lost then B "?-" else B "@-") (B "ind_obj")
            (dec (i_num o) ++ [44] ++ dec (i_gen o)) [] None cl t]
  | ItReg (RVoid b e) _ => Ok [plus (oz (Some b)) (size_of (Some b) e) (B "void") None []]
  | ItXS bo _ tab => let wt := wrong_at wrong (oz bo) in Ok (map (fun x => stream_entry wt (fst x)) tab)
  | ItEmb bo j e =>
      let* n := (match e_num e with PInt n => Ok n | _ => Exc EUnsupported end) in
      (* the set holds (env_num, o_num); it is asked for (env_num, seq_num) *)
      let lost := existsb (fun k => match k with KEmb num env _ => (env =? e_env e) && (num =? Z.of_nat j) | _ => false end) unindexed in
      if e_env e =? 0 then Exc EValueError else
      let* (cl, t, r, f) := obj_info (e_obj e) in
      Ok [mk_dline (B "-") (Some (Z.of_nat (e_pos e))) None r f (Some (Z.of_nat j)) (dec (e_env e) ++ [44]) (if lost then B "?-" else B "@-") (B "ind_obj")
            (dec n ++ [44]) [] None cl t]
  end.
Fixpoint all_lines (t : bytes) (wrong : list (option Z * list okey)) (unindexed : list okey) (m : list item) : res (list dline) :=
  match m with
  | [] => Ok []
  | x :: r => let* a := item_lines t wrong unindexed x in let* b := all_lines t wrong unindexed r in Ok (a ++ b)
  end.
(* cli.py:193-348  dump_disasm: what is printed *)
Definition disasm_lines {ZL : Zlib} (fuel : nat) (p : prov) : res (list dline) :=
  let* m := file_object_map p in
  let* (seq, _, _) := build_xref_sequence fuel p in
  let* wrong := check_index_targets m seq in
  let* un := check_not_indexed_objects m seq in
  let* (t, _, _) := read_at p 0 (-1) in
  all_lines t wrong un m.
Definition dump_disasm {ZL : Zlib} (fuel : nat) (p : prov) : res bytes :=
  let* l := disasm_lines fuel p in print_lines l.
End Lines.
