(* Model of pdfsyntax/graphics.py, of text_element_to_unicode (text.py) and of
   build_text_fragments (api.py).
   Simplifications: numbers are exact rationals (Qc) instead of ints and binary floats;
   a complex number (an indirect reference) used as an operand is not modelled
   (EUnsupported); the graphics state stack is a list whose head is the top (Python's last
   element); q's deepcopy is value semantics. *)
From Coq Require Import String QArith Qcanon.
From Verif Require Import PyBase Model_Filters Model_Objects Model_Text.
Open Scope Z_scope.

Definition qc (n : Z) : Qc := Q2Qc (inject_Z n).
(* the value of the float m * 10^e *)
Definition qreal (m e : Z) : Qc :=
  if 0 <=? e then qc (m * 10 ^ e) else Q2Qc (Qmake m (Z.to_pos (10 ^ (- e)))).
(* a Python value used in arithmetic *)
Definition num_of (o : obj) : res Qc :=
  match o with
  | PInt z => Ok (qc z)
  | PReal m e => Ok (qreal m e)
  | PBool b => Ok (qc (if b then 1 else 0))
  | PRef _ _ => Exc EUnsupported
  | _ => Exc ETypeError
  end.
(* - x *)
Definition neg_of (o : obj) : res obj :=
  match o with
  | PInt z => Ok (PInt (- z))
  | PReal m e => Ok (PReal (- m) e)
  | PBool b => Ok (PInt (- (if b then 1 else 0)))
  | PRef _ _ => Exc EUnsupported
  | _ => Exc ETypeError
  end.

(* [a, b, c, d, e, f] *)
Record mat := mkmat { ma : Qc; mb : Qc; mc : Qc; md : Qc; me : Qc; mf : Qc }.
(* graphics.py:6 *)
Definition IDENTITY_MATRIX : mat := mkmat 1 0 0 1 0 0.
(* graphics.py:9-25  multiply_matrices *)
Definition multiply_matrices (m1 m2 : mat) : mat :=
  (mkmat (ma m1 * ma m2 + mb m1 * mc m2)
         (ma m1 * mb m2 + mb m1 * md m2)
         (mc m1 * ma m2 + md m1 * mc m2)
         (mc m1 * mb m2 + md m1 * md m2)
         (me m1 * ma m2 + mf m1 * mc m2 + me m2)
         (me m1 * mb m2 + mf m1 * md m2 + mf m2))%Qc.
(* operands = command[:7], used as a matrix *)
Definition mat_of (command : list obj) : res mat :=
  match command with
  | a :: b :: c :: d :: e :: f :: _ =>
      let* a := num_of a in let* b := num_of b in let* c := num_of c in
      let* d := num_of d in let* e := num_of e in let* f := num_of f in
      Ok (mkmat a b c d e f)
  | _ => Exc EIndexError
  end.

(* graphics.py:40-50  the dictionary text_state *)
Record tstate := mkts {
  t_tm : mat; t_tlm : mat; t_Tc : obj; t_Tw : obj; t_Th : obj; t_Tl : obj;
  t_Tf : obj; t_Tfs : obj; t_Tmode : obj; t_Trise : obj }.
Definition ts0 : tstate :=
  mkts IDENTITY_MATRIX IDENTITY_MATRIX (PInt 0) (PInt 0) (PInt 100) (PInt 0) PNone PNone (PInt 0) (PInt 0).
Definition set_tm (m l : mat) (t : tstate) : tstate :=
  mkts m l (t_Tc t) (t_Tw t) (t_Th t) (t_Tl t) (t_Tf t) (t_Tfs t) (t_Tmode t) (t_Trise t).
Definition set_Tc (o : obj) (t : tstate) : tstate :=
  mkts (t_tm t) (t_tlm t) o (t_Tw t) (t_Th t) (t_Tl t) (t_Tf t) (t_Tfs t) (t_Tmode t) (t_Trise t).
Definition set_Tw (o : obj) (t : tstate) : tstate :=
  mkts (t_tm t) (t_tlm t) (t_Tc t) o (t_Th t) (t_Tl t) (t_Tf t) (t_Tfs t) (t_Tmode t) (t_Trise t).
Definition set_Th (o : obj) (t : tstate) : tstate :=
  mkts (t_tm t) (t_tlm t) (t_Tc t) (t_Tw t) o (t_Tl t) (t_Tf t) (t_Tfs t) (t_Tmode t) (t_Trise t).
Definition set_Tl (o : obj) (t : tstate) : tstate :=
  mkts (t_tm t) (t_tlm t) (t_Tc t) (t_Tw t) (t_Th t) o (t_Tf t) (t_Tfs t) (t_Tmode t) (t_Trise t).
Definition set_font (f s : obj) (t : tstate) : tstate :=
  mkts (t_tm t) (t_tlm t) (t_Tc t) (t_Tw t) (t_Th t) (t_Tl t) f s (t_Tmode t) (t_Trise t).
Definition set_Tmode (o : obj) (t : tstate) : tstate :=
  mkts (t_tm t) (t_tlm t) (t_Tc t) (t_Tw t) (t_Th t) (t_Tl t) (t_Tf t) (t_Tfs t) o (t_Trise t).
Definition set_Trise (o : obj) (t : tstate) : tstate :=
  mkts (t_tm t) (t_tlm t) (t_Tc t) (t_Tw t) (t_Th t) (t_Tl t) (t_Tf t) (t_Tfs t) (t_Tmode t) o.

(* graphics.py:28-33  trm *)
Definition trm (ts : tstate) (gs : list mat) : res mat :=
  let* fs := num_of (t_Tfs ts) in
  let* th := num_of (t_Th ts) in
  let* rise := num_of (t_Trise ts) in
  let c := (mkmat (fs * th / qc 100) 0 0 fs 0 rise)%Qc in
  match gs with
  | [] => Exc EIndexError
  | ctm :: _ => Ok (multiply_matrices (multiply_matrices c (t_tm ts)) ctm)
  end.

Definition command_op (command : list obj) : res obj :=
  match command with [] => Exc EIndexError | _ => Ok (last command PNone) end.
Definition arg (command : list obj) (i : nat) : res obj := of_opt EIndexError (nth_error command i).

(* graphics.py:78-84  'Td' *)
Definition do_Td (x y : obj) (ts : tstate) : res tstate :=
  let* x := num_of x in
  let* y := num_of y in
  let m := multiply_matrices (mkmat 1 0 0 1 x y) (t_tlm ts) in
  Ok (set_tm m m ts).
(* graphics.py:94-95  'T*' *)
Definition do_Tstar (ts : tstate) : res tstate :=
  let* l := neg_of (t_Tl ts) in do_Td (PInt 0) l ts.

Definition op_is (o : obj) (w : string) : bool := match o with PStr s => beqb s (B w) | _ => false end.
(* graphics.py:36-105  apply_command.  The recursive calls are expanded; an empty text_state
   dictionary is None. *)
Definition apply_command (command : list obj) (gs0 : list mat) (tso : option tstate)
  : res (list mat * tstate) :=
  let gs := match gs0 with [] => [IDENTITY_MATRIX] | _ => gs0 end in
  let ts := match tso with None => ts0 | Some t => t end in
  let ctm := hd IDENTITY_MATRIX gs in
  let below := tl gs in
  let* o := command_op command in
  if op_is o "q" then Ok (ctm :: gs, ts)
  else if op_is o "Q" then Ok (below, ts)
  else if op_is o "cm" then
    let* m := mat_of command in Ok (multiply_matrices m ctm :: below, ts)
  else if op_is o "Tc" then let* v := arg command 0 in Ok (gs, set_Tc v ts)
  else if op_is o "Tw" then let* v := arg command 0 in Ok (gs, set_Tw v ts)
  else if op_is o "Tz" then let* v := arg command 0 in Ok (gs, set_Th v ts)
  else if op_is o "TL" then let* v := arg command 0 in Ok (gs, set_Tl v ts)
  else if op_is o "Tf" then
    let* f := arg command 0 in let* s := arg command 1 in Ok (gs, set_font f s ts)
  else if op_is o "Tr" then let* v := arg command 0 in Ok (gs, set_Tmode v ts)
  else if op_is o "Ts" then let* v := arg command 0 in Ok (gs, set_Trise v ts)
  else if op_is o "BT" then Ok (gs, set_tm IDENTITY_MATRIX IDENTITY_MATRIX ts)
  else if op_is o "Td" then
    let* x := arg command 0 in let* y := arg command 1 in
    let* t := do_Td x y ts in Ok (gs, t)
  else if op_is o "TD" then
    let* y := arg command 1 in
    let* l := neg_of y in
    let* x := arg command 0 in
    let* t := do_Td x y (set_Tl l ts) in Ok (gs, t)
  else if op_is o "Tm" then
    let* m := mat_of command in
    let m := multiply_matrices m IDENTITY_MATRIX in Ok (gs, set_tm m m ts)
  else if op_is o "T*" then let* t := do_Tstar ts in Ok (gs, t)
  else if op_is o "'" then let* t := do_Tstar ts in Ok (gs, t)
  else if beqb (match o with PStr s => s | _ => [] end) [34] then
    let* w := arg command 0 in
    let* c := arg command 1 in
    let* t := do_Tstar (set_Tc c (set_Tw w ts)) in Ok (gs, t)
  else Ok (gs, ts).

(* a sequence of commands *)
Fixpoint run_commands (cs : list (list obj)) (gs : list mat) (ts : option tstate)
  : res (list mat * option tstate) :=
  match cs with
  | [] => Ok (gs, ts)
  | c :: r => let* (g, t) := apply_command c gs ts in run_commands r g (Some t)
  end.

(* graphics.py:119,125  type(x) == str and x[0:1] != '/' *)
Definition is_operator (o : obj) : bool :=
  match o with PStr s => negb (beqb (firstn 1 s) [47]) | _ => false end.
(* graphics.py:118-131, the loop from the last token to the first; [toks] is reversed,
   i = 0 on its last element *)
Fixpoint psc_loop (toks : list obj) (current : list obj) (ret : list (list obj))
  : list obj * list (list obj) :=
  match toks with
  | [] => (current, ret)
  | t :: r =>
      if is_operator t then
        psc_loop r [t] (match current with [] => ret | _ => current :: ret end)
      else
        let current := t :: current in
        psc_loop r current (match r with [] => current :: ret | _ => ret end)
  end.
(* graphics.py:108-135  parse_stream_content; Simplification: parse_obj must give a list
   (len() and indexing of another type are not modelled) *)
Definition parse_stream_content `{ZL : Zlib} (content : bytes) : res (list (list obj)) :=
  let* o := parse_obj ([91] ++ content ++ [93]) 0 in
  match o with
  | PList tokens =>
      let '(current, ret) := psc_loop (rev tokens) [] [] in
      Ok (match current with [] => ret | _ => current :: ret end)
  | _ => Exc EUnsupported
  end.

(* s.replace('<', '&lt;') etc: one character *)
Definition replace1 (c : Z) (w : bytes) (s : bytes) : bytes :=
  flat_map (fun x => if x =? c then w else [x]) s.
(* graphics.py:138-149  printable_stream_content with escape = True (latin-1 is the identity) *)
Definition printable_stream_content (c : bytes) : option bytes :=
  if existsb (fun x => (x <? 20) && negb (x =? 10) && negb (x =? 13)) c then None
  else Some (replace1 62 (B "&gt;") (replace1 60 (B "&lt;") c)).

(* ---------- showing text ---------- *)
(* a font, as prepared by docstruct.prepare_font: the keys 'dec_fun' and 'char_width' *)
Record font := mkfont { f_dec : bytes -> res (bytes * list Z); f_width : Z -> obj }.
Definition fonts_t := list (bytes * font).
Fixpoint font_get (k : bytes) (l : fonts_t) : option font :=
  match l with [] => None | (n, f) :: r => if beqb n k then Some f else font_get k r end.
(* fonts[font]; an unhashable key is a TypeError *)
Definition font_of (fonts : fonts_t) (o : obj) : res font :=
  match o with
  | PStr n => of_opt EKeyError (font_get n fonts)
  | PList _ | PDict _ => Exc ETypeError
  | _ => Exc EKeyError
  end.
(* for c in chars: width += char_width(c) / 1000 *)
Fixpoint add_widths (f : Z -> obj) (chars : list Z) (w : Qc) : res Qc :=
  match chars with
  | [] => Ok w
  | c :: r => let* x := num_of (f c) in add_widths f r (w + x / qc 1000)%Qc
  end.
(* int(x): truncation *)
Definition q_int (x : Qc) : Z := Z.quot (Qnum (this x)) (Zpos (Qden (this x))).
Definition q_leb (x y : Qc) : bool := Qle_bool (this x) (this y).
(* text.py:196-209  one element of the array of TJ *)
Definition tj_item (f : font) (t : obj) (u : bytes) (w : Qc) : res (bytes * Qc) :=
  match t with
  | PBytes s =>
      let* (us, chars) := f_dec f s in
      let* w := add_widths (f_width f) chars w in
      Ok (u ++ us, w)
  | _ =>
      let* sp := num_of (f_width f 32) in
      let* t := num_of t in
      let t := (t - sp * (qc 2 / qc 10))%Qc in
      let* u := (if q_leb t (- sp)%Qc then
                   if q_int sp =? 0 then Exc EZeroDivision
                   else Ok (u ++ repeat 32 (Z.to_nat (q_int (- t)%Qc / q_int sp)))
                 else Ok u) in
      Ok (u, (w - t / qc 1000)%Qc)
  end.
Fixpoint tj_items (f : font) (l : list obj) (u : bytes) (w : Qc) : res (bytes * Qc) :=
  match l with
  | [] => Ok (u, w)
  | t :: r => let* (u, w) := tj_item f t u w in tj_items f r u w
  end.
(* element[-2] *)
Definition before_last (l : list obj) : res obj :=
  match rev l with _ :: x :: _ => Ok x | _ => Exc EIndexError end.
(* text.py:181-210  text_element_to_unicode, for a Tj or TJ command; the font is looked up at
   each use.  Simplification: a TJ operand that is not an array, or a Tj operand that is not a
   string, raises. *)
Definition text_element_to_unicode (fonts : fonts_t) (element : list obj) (ts : tstate) : res (bytes * Qc) :=
  let* o := command_op element in
  if op_is o "Tj" then
    let* t := before_last element in
    let* f := font_of fonts (t_Tf ts) in
    match t with
    | PBytes s => tj_item f t [] (qc 0)
    | _ => Exc ETypeError
    end
  else if op_is o "TJ" then
    let* t := before_last element in
    match t with
    | PList [] => Ok ([], qc 0)
    | PList l => let* f := font_of fonts (t_Tf ts) in tj_items f l [] (qc 0)
    | _ => Exc ETypeError
    end
  else Ok ([], qc 0).

(* api.py:356-370, the loop over the commands *)
Fixpoint fragments_loop (fonts : fonts_t) (cs : list (list obj)) (gs : list mat) (ts : option tstate)
  : res (list (mat * bytes * mat)) :=
  match cs with
  | [] => Ok []
  | te :: r =>
      let* o := command_op te in
      (* te[-1] not in 'lmch...' *)
      let* _ := match o with PStr _ => Ok tt | _ => Exc ETypeError end in
      let* (gs, ts) := apply_command te gs ts in
      if op_is o "TJ" || op_is o "Tj" then
        let* old := trm ts gs in
        let* (uc, disp) := text_element_to_unicode fonts te ts in
        let* fs := num_of (t_Tfs ts) in
        let* tc := num_of (t_Tc ts) in
        let* tw := num_of (t_Tw ts) in
        let* th := num_of (t_Th ts) in
        let tx := ((disp * fs + tc + tw) * th / qc 100)%Qc in
        let ts' := set_tm (multiply_matrices (mkmat 1 0 0 1 tx 0) (t_tm ts)) (t_tlm ts) ts in
        let* new := trm ts' gs in
        let* rest := fragments_loop fonts r gs (Some ts') in
        Ok ((old, uc, new) :: rest)
      else fragments_loop fonts r gs (Some ts)
  end.
(* c_all += c['stream'] *)
Fixpoint join_streams (l : list obj) : res bytes :=
  match l with
  | [] => Ok []
  | PStream _ (Some s) _ :: r => let* t := join_streams r in Ok (s ++ t)
  | PStream _ None _ :: _ => Exc ETypeError
  | PDict _ :: _ => Exc EKeyError
  | _ => Exc ETypeError
  end.
(* api.py:340-370  build_text_fragments(page_contents, [fonts]) *)
Definition build_text_fragments `{ZL : Zlib} (contents : list obj) (fonts : fonts_t)
  : res (list (mat * bytes * mat)) :=
  let* c := join_streams contents in
  let* t := parse_stream_content c in
  fragments_loop fonts t [] None.
