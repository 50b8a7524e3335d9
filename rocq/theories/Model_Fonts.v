(* Model of the fonts of pages: prepare_font and get_page_fonts (docstruct.py), fonts and
   extract_page_text (api.py), print_fonts (cli.py) *)
From Coq Require Import String QArith Qcanon.
From Verif Require Import PyBase Model_Filters Model_Objects Model_Filestruct Model_Text Model_Docstruct Model_Api.
From Verif Require Import Model_Graphics Model_Layout.
Open Scope Z_scope.

Definition K_BaseFont := Eval vm_compute in B "/BaseFont".
Definition K_ToUnicode := Eval vm_compute in B "/ToUnicode".
Definition K_Encoding := Eval vm_compute in B "/Encoding".
Definition K_FirstChar := Eval vm_compute in B "/FirstChar".
Definition K_Widths := Eval vm_compute in B "/Widths".
Definition K_Descendants := Eval vm_compute in B "/DescendantFonts".
Definition K_DW := Eval vm_compute in B "/DW".
Definition K_Font := Eval vm_compute in B "/Font".

(* the dictionary font_desc; 'descriptor' is never read *)
Record fdesc := mk_fdesc { fd_iref : obj; fd_name : obj; fd_type : obj; fd_tou : obj; fd_enc : obj; fd_font : font }.

Section WithZlib.
Context {ZL : Zlib}.

(* the function that prepare_widths returns: without a list and an integer it raises
   TypeError when it is called (here its result is None, which no sum accepts) *)
Definition widths_of (w first : obj) : Z -> obj :=
  match w, first with
  | PList l, PInt z => prepare_widths l z
  | _, _ => fun _ => PNone
  end.
(* docstruct.py:928-942, the choice of 'char_width' *)
Definition char_width_of (d : doc) (o : dict) : res ((Z -> obj) * doc) :=
  let get k := match dget k o with Some v => v | None => PNone end in
  if obj_truthy (get K_Widths) then
    let* (w, d1) := get_object d (get K_Widths) in
    let* (f, d2) := get_object d1 (get K_FirstChar) in
    Ok (widths_of w f, d2)
  else if obj_truthy (get K_Descendants) then
    let* (ds, d1) := get_object d (get K_Descendants) in
    let* x := (match ds with
               | PList (x :: _) => Ok x
               | PList [] => Exc EIndexError
               | PDict _ => Exc EKeyError
               | _ => Exc ETypeError
               end) in
    let* (df, d2) := get_object d1 x in
    let* w := item_opt K_W df in
    let* dw := (match df with PDict y => Ok (match dget K_DW y with Some v => v | None => PInt 1000 end) | _ => Exc EAttributeError end) in
    let* (wv, d3) := get_object d2 w in
    let* (dv, d4) := get_object d3 dw in
    let* f := prepare_w wv dv in
    Ok (f, d4)
  else Ok (prepare_widths (repeat (PInt 500) 256) 0, d).
(* docstruct.py:943-956, 'dec_fun'; the argument simple is not used by apply_tounicode *)
Definition dec_fun_of (d : doc) (o : dict) : res ((bytes -> res (bytes * list Z)) * doc) :=
  let get k := match dget k o with Some v => v | None => PNone end in
  if obj_truthy (get K_ToUnicode) then
    let* (s, d1) := get_object d (get K_ToUnicode) in
    let* c := (match s with
               | PStream _ (Some c) _ => Ok c
               | PDict _ => Exc EKeyError
               | _ => Exc ETypeError
               end) in
    let* cm := parse_obj ([91] ++ c ++ [93]) 0 in
    Ok (match cm with PList l => apply_tounicode l | _ => fun _ => Exc ETypeError end, d1)
  else Ok (apply_encoding (get K_Encoding), d).
(* docstruct.py:914-957  prepare_font *)
Definition prepare_font (d : doc) (iref : obj) : res (fdesc * doc) :=
  let* (o, d1) := get_object d iref in
  let* name := item K_BaseFont o in
  let* ty := item K_Subtype o in
  let* f := dict_of o in
  let get k := match dget k f with Some v => v | None => PNone end in
  let* (w, d2) := char_width_of d1 f in
  let* (dec, d3) := dec_fun_of d2 f in
  Ok (mk_fdesc iref name ty (get K_ToUnicode) (get K_Encoding) (mkfont dec w), d3).

(* docstruct.py:971-972 *)
Fixpoint prepare_fonts (d : doc) (l : dict) : res (list (bytes * fdesc) * doc) :=
  match l with
  | [] => Ok ([], d)
  | (k, o) :: r =>
      let* (f, d1) := prepare_font d o in
      let* (t, d2) := prepare_fonts d1 r in
      Ok ((k, f) :: t, d2)
  end.
(* docstruct.py:960-973  get_page_fonts; fonts that is not a dictionary cannot be iterated
   over, or its elements are no keys *)
Definition page_fonts (fuel : nat) (d : doc) (leak : dict) (page_num : Z) : res (list (bytes * fdesc) * dict * doc) :=
  let* (c, leak1, d1) := flat_page_tree fuel d leak None in
  let* cl := of_opt ETypeError c in
  let* x := pyget cl page_num in
  let* (pg, d2) := get_object d1 (fst x) in
  let* r := item K_Resources pg in
  let* (fs, d3) := (if obj_truthy r then
                      let* (rd, d3) := get_object d2 r in
                      let* f := item K_Font rd in
                      let* l := (match f with PDict l => Ok l | PList [] => Ok [] | _ => Exc ETypeError end) in
                      Ok (l, d3)
                    else Ok ([], d2)) in
  let* (l, d4) := prepare_fonts d3 fs in
  Ok (l, leak1, d4).
Fixpoint get_page_fonts (fuel : nat) (d : doc) (leak : dict) (nums : list Z)
  : res (list (list (bytes * fdesc)) * dict * doc) :=
  match nums with
  | [] => Ok ([], leak, d)
  | n :: r =>
      let* (l, leak1, d1) := page_fonts fuel d leak n in
      let* (t, leak2, d2) := get_page_fonts fuel d1 leak1 r in
      Ok (l :: t, leak2, d2)
  end.

(* an entry of the result of fonts; the keys are complex numbers *)
Record frow := mk_frow { fr_key : ref; fr_name : bytes; fr_type : bytes; fr_enc : bytes; fr_pages : list Z; fr_tou : bool }.
Definition W_builtin := Eval vm_compute in B "built-in".
Definition W_other := Eval vm_compute in B "other".
Definition T_Type1 := Eval vm_compute in B "Type1".
(* x[1:] of a str; bytes could be cut too (simplification) *)
Definition cut1 (o : obj) : res bytes := match o with PStr s => Ok (skipn 1 s) | _ => Exc ETypeError end.
(* api.py:271-282 *)
Definition encoding_name (t : bytes) (e : obj) : bytes :=
  match e with
  | PStr s => skipn 1 s
  | PNone => if beqb t T_Type1 then W_builtin else W_other
  | _ => W_other
  end.
Fixpoint note_page (k : ref) (i : Z) (l : list frow) : list frow :=
  match l with
  | [] => []
  | r :: t => if ref_eqb k (fr_key r) then mk_frow (fr_key r) (fr_name r) (fr_type r) (fr_enc r) (fr_pages r ++ [i]) (fr_tou r) :: t
              else r :: note_page k i t
  end.
(* api.py:267-296, one font of page i; a font written in the page is no key *)
Definition note_font (i : Z) (ret : list frow) (f : fdesc) : res (list frow) :=
  let* n := cut1 (fd_name f) in
  let* t := cut1 (fd_type f) in
  let* o := (match fd_iref f with PRef g n => Ok (g, n) | _ => Exc ETypeError end) in
  let ret1 := if existsb (fun r => ref_eqb o (fr_key r)) ret then ret
              else ret ++ [mk_frow o n t (encoding_name t (fd_enc f)) [] (obj_truthy (fd_tou f))] in
  Ok (note_page o i ret1).
Fixpoint note_fonts (i : Z) (ret : list frow) (l : list (bytes * fdesc)) : res (list frow) :=
  match l with
  | [] => Ok ret
  | (_, f) :: r => let* ret1 := note_font i ret f in note_fonts i ret1 r
  end.
Fixpoint note_all (i : Z) (ret : list frow) (l : list (list (bytes * fdesc))) : res (list frow) :=
  match l with
  | [] => Ok ret
  | p :: r => let* ret1 := note_fonts i ret p in note_all (i + 1) ret1 r
  end.
(* api.py:261-298  fonts; range() of the stored count *)
Definition fonts (fuel : nat) (d : doc) (leak : dict) : res (list frow * dict * doc) :=
  let* (n, d1) := number_pages d in
  let* nb := (match n with PInt z => Ok z | PBool b => Ok (if b then 1 else 0) | _ => Exc ETypeError end) in
  let* (l, leak1, d2) := get_page_fonts fuel d1 leak (zseq 0 (Z.to_nat nb)) in
  let* r := note_all 0 [] l in
  Ok (r, leak1, d2).

(* api.py:373-384  extract_page_text *)
Definition extract_page_text (fuel : nat) (d : doc) (leak : dict) (page_num : Z) : res (bytes * dict * doc) :=
  let* (l, leak1, d1) := page_fonts fuel d leak page_num in
  let* (cs, leak2, d2) := get_page_contents fuel d1 leak1 page_num in
  let* t := page_text cs (map (fun kf => (fst kf, fd_font (snd kf))) l) in
  Ok (t, leak2, d2).

End WithZlib.

(* cli.py:357-364  print_generic_table: the columns of a line, cut and padded *)
Fixpoint columns_line (line : list bytes) (widths : list nat) : res bytes :=
  match widths, line with
  | [], _ => Ok [10]
  | w :: ws, c :: cs => let* t := columns_line cs ws in Ok (ljust w (firstn w c) ++ [32] ++ t)
  | _ :: _, [] => Exc EIndexError
  end.
Fixpoint generic_table (lines : list (list bytes)) (widths : list nat) : res bytes :=
  match lines with
  | [] => Ok []
  | l :: r => let* a := columns_line l widths in let* t := generic_table r widths in Ok (a ++ t)
  end.
(* cli.py:367-381  print_fonts, once fonts has been called *)
Definition font_line (r : frow) : list bytes :=
  [fr_name r; fr_type r; fr_enc r; dec (snd (fr_key r)) ++ [44] ++ dec (fst (fr_key r)); dec (Z.of_nat (length (fr_pages r)))].
Definition fonts_table (l : list frow) : res bytes :=
  generic_table ([B "Name"; B "Type"; B "Encoding"; B "Obj"; B "Pages"] :: map font_line l) [30; 10; 16; 8; 6]%nat.
