(* Specification vocabulary for the fonts of pages *)
From Coq Require Import String Sorted.
From Verif Require Import PyBase Model_Filters Model_Objects Model_Filestruct Model_Text Model_Docstruct Model_Api Model_Graphics Model_Fonts.
From Verif Require Import Spec_Objects Spec_Filestruct Spec_Docstruct Spec_Pages Spec_Text Spec_Calls.

Section WithZlib.
Context {ZL : Zlib}.

(* the fonts of a page, by name: the /Font dictionary of its own resources; empty resources
   have no fonts *)
Inductive page_font_dict (d : doc) (p : dict) : dict -> Prop :=
| Pf_dict r res l : dget (B "/Resources") p = Some r -> obj_truthy r = true -> deref d r (PDict res) ->
    dget (B "/Font") res = Some (PDict l) -> page_font_dict d p l
| Pf_none r : dget (B "/Resources") p = Some r -> obj_truthy r = false -> page_font_dict d p [].

(* the width of each character: an array of widths that starts at the first character, the
   declarations of the descendant font, or 500 for all *)
Inductive widths_rule (d : doc) (f : dict) (w : Z -> obj) : Prop :=
| Wr_simple a l b first : dget (B "/Widths") f = Some a -> obj_truthy a = true -> deref d a (PList l) ->
    dget (B "/FirstChar") f = Some b -> deref d b (PInt first) ->
    (forall c, w c = match (if first <=? c then nth_error l (Z.to_nat (c - first)) else None) with Some x => x | None => PInt 500 end) ->
    widths_rule d f w
| Wr_descendant a x r y b ds dw : dget (B "/Widths") f = None -> dget (B "/DescendantFonts") f = Some a -> obj_truthy a = true ->
    deref d a (PList (x :: r)) -> deref d x (PDict y) ->
    dget (B "/W") y = Some b -> deref d b (PList (flat_map wdecl_code ds)) -> ds <> [] ->
    (dget (B "/DW") y = None /\ dw = PInt 1000 \/ exists o, dget (B "/DW") y = Some o /\ deref d o dw) ->
    (forall c, w c = match first_some (wdecl_width c) (rev ds) with Some v => v | None => dw end) ->
    widths_rule d f w
| Wr_default : dget (B "/Widths") f = None -> dget (B "/DescendantFonts") f = None -> (forall c, w c = PInt 500) -> widths_rule d f w.

(* the text of a string: the map of the font to Unicode, or else its encoding *)
Inductive text_rule (d : doc) (f : dict) (dec : bytes -> res (bytes * list Z)) : Prop :=
| Tr_map a x c e items wl : dget (B "/ToUnicode") f = Some a -> obj_truthy a = true -> deref d a (PStream x (Some c) e) ->
    (0 < wl)%nat -> Forall (citem_ok wl) items -> has_section items ->
    parse_obj (B "[" ++ c ++ B "]") 0 = Ok (PList (cmap_code wl items)) ->
    (forall cs s, Forall (code_ok wl) cs -> escapes (codes_bytes wl cs) s -> dec (literal s) = Ok (concat (map (cmap_text items) cs), cs)) ->
    (forall cs, Forall (code_ok wl) cs -> dec (hexstr (codes_bytes wl cs)) = Ok (concat (map (cmap_text items) cs), cs)) ->
    text_rule d f dec
| Tr_encoding : dget (B "/ToUnicode") f = None ->
    (forall raw s, Forall (fun c => 0 <= c < 128) raw -> escapes raw s -> dec (literal s) = Ok (raw, raw)) -> text_rule d f dec.

(* a font dictionary with a name and a type, whose widths and text can be found *)
Record usable (d : doc) (o : obj) (f : dict) : Prop := {
  us_dict : deref d o (PDict f);
  us_name : exists c s, dget (B "/BaseFont") f = Some (PStr (c :: s));
  us_type : exists c s, dget (B "/Subtype") f = Some (PStr (c :: s));
  us_widths : exists w, widths_rule d f w;
  us_text : exists dec, text_rule d f dec
}.
Definition prepared (d : doc) (f : dict) (fo : font) : Prop := widths_rule d f (f_width fo) /\ text_rule d f (f_dec fo).

(* ---- the table of all fonts ---- *)
(* the pages with this font, once for each name it has there *)
Definition uses (r : ref) (l : dict) : nat :=
  length (filter (fun kv => match snd kv with PRef g n => (g =? fst r) && (n =? snd r) | _ => false end) l).
Fixpoint pages_using (r : ref) (i : Z) (ls : list dict) : list Z :=
  match ls with [] => [] | l :: t => repeat i (uses r l) ++ pages_using r (i + 1) t end.
(* the encoding that is shown *)
Definition absent (f : dict) (k : bytes) : Prop := dget k f = None \/ dget k f = Some PNone.
Inductive shown_encoding (f : dict) (ty : bytes) : bytes -> Prop :=
| Se_name s : dget (B "/Encoding") f = Some (PStr s) -> shown_encoding f ty (tl s)
| Se_builtin : absent f (B "/Encoding") -> ty = B "Type1" -> shown_encoding f ty (B "built-in")
| Se_missing : absent f (B "/Encoding") -> ty <> B "Type1" -> shown_encoding f ty (B "other")
| Se_other e : dget (B "/Encoding") f = Some e -> e <> PNone -> (forall s, e <> PStr s) -> shown_encoding f ty (B "other").
Record font_row (d : doc) (ls : list dict) (r : frow) : Prop := {
  fo_pages : fr_pages r = pages_using (fr_key r) 0 ls;
  fo_dict : exists f, deref d (PRef (fst (fr_key r)) (snd (fr_key r))) (PDict f) /\
    (exists c, dget (B "/BaseFont") f = Some (PStr (c :: fr_name r))) /\ (exists c, dget (B "/Subtype") f = Some (PStr (c :: fr_type r))) /\
    shown_encoding f (fr_type r) (fr_enc r) /\ (fr_tou r = true <-> exists a, dget (B "/ToUnicode") f = Some a /\ obj_truthy a = true)
}.
(* every font of the pages is listed, once, in the order of the pages *)
Definition font_table (d : doc) (ls : list dict) (rows : list frow) : Prop :=
  NoDup (map fr_key rows) /\ Forall (font_row d ls) rows /\
  (forall g n, In (g, n) (map fr_key rows) <-> exists l k, In l ls /\ In (k, PRef g n) l) /\
  StronglySorted (fun a b => match fr_pages a, fr_pages b with x :: _, y :: _ => x <= y | _, _ => False end) rows.

End WithZlib.

(* a line of the printed table: each column cut to its width, or filled up with blanks *)
Inductive printed_line : list bytes -> list nat -> bytes -> Prop :=
| Pl_end : printed_line [] [] [10]
| Pl_col c w cs ws t : printed_line cs ws t -> printed_line (c :: cs) (w :: ws) (firstn w c ++ repeat 32 (w - length c) ++ [32] ++ t).

