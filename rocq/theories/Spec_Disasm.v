(* Specification vocabulary for the listing of a file *)
From Coq Require Import String.
From Verif Require Import PyBase Model_Filters Model_Objects Model_Filestruct Model_Disasm Spec_Filestruct.
Open Scope Z_scope.

(* a column of width w in a printed line *)
Inductive column_shows (w : nat) : ckind -> dcell -> bytes -> Prop :=
| Co_pos z n : (n + length (dec z) = w)%nat -> column_shows w CPos (DInt z) (repeat 48 n ++ dec z ++ B " ")
| Co_nopos : column_shows w CPos DNone (repeat 32 w ++ B " ")
| Co_size z n : (n + length (dec z) = w)%nat -> column_shows w CSize (DInt z) (B "[" ++ dec z ++ repeat 32 n ++ B "] ")
| Co_nosize : column_shows w CSize DNone (repeat 32 w ++ B "   ")
| Co_text s n : (n + length s = w)%nat -> column_shows w COther (DStr s) (s ++ repeat 32 n ++ B " ")
| Co_number z n : (n + length (dec z) = w)%nat -> column_shows w COther (DInt z) (repeat 32 n ++ dec z ++ B " ").
Inductive line_shows : list ckind -> list nat -> list dcell -> bytes -> Prop :=
| Ls_nil : line_shows [] [] [] []
| Ls_cons k ks w ws c cs s t : column_shows w k c s -> line_shows ks ws cs t -> line_shows (k :: ks) (w :: ws) (c :: cs) (s ++ t).
(* the columns of the listing *)
Definition columns_of (l : dline) : list dcell :=
  [DStr (l_macro l); oint (l_pos l); oint (l_size l); DStr (l_ratio l); DStr (l_filters l);
   match l_seq l with Some z => DInt z | None => DStr [] end; DStr (l_env l); DStr (l_st l); DStr (l_region l); DStr (l_iref l);
   DStr (l_mode l); oint (l_addr l); DStr (l_cl l); DStr (l_detail l)].
Definition column_kinds : list ckind := [COther; CPos; CSize; COther; COther; COther; COther; COther; COther; COther; COther; CPos; COther; COther].

(* ---- which lines ---- *)
Definition main_line (l : dline) (b e : nat) (ty : bytes) : Prop :=
  l_macro l = B "+" /\ l_pos l = Some (Z.of_nat b) /\ l_size l = Some (Z.of_nat e - Z.of_nat b) /\ l_region l = ty.
Definition class_name (o : obj) : bytes :=
  match o with PDict _ => B "dict" | PStream _ _ _ => B "stream" | PList _ => B "array" | PInt _ => B "int" | _ => B "other" end.
(* ---- what the columns say of a region ---- *)
(* the first n bytes, or all of them *)
Definition first_part (n : nat) (c p : bytes) : Prop := exists r, c = p ++ r /\ (length p = n \/ (length p < n)%nat /\ r = []).
Definition HEX_DIGITS : bytes := Eval vm_compute in B "0123456789abcdef".
Inductive hex_text : bytes -> bytes -> Prop :=
| Hx_nil : hex_text [] []
| Hx_cons c a b s t : 0 <= a < 16 -> 0 <= b < 16 -> c mod 256 = 16 * a + b -> hex_text s t ->
    hex_text (c :: s) (nth (Z.to_nat a) HEX_DIGITS 0 :: nth (Z.to_nat b) HEX_DIGITS 0 :: t).
Definition ascii_text (s : bytes) : Prop := Forall (fun c => c < 128) s.
Definition opens_with (w c : bytes) : Prop := exists r, c = w ++ r.
Inductive comment_shown (c : bytes) : bytes -> Prop :=
| Cs_header p : opens_with (B "%PDF") c -> first_part 8 c p -> comment_shown c p
| Cs_end : opens_with (B "%%EOF") c -> comment_shown c (B "%%EOF")
| Cs_text p : ~ opens_with (B "%PDF") c -> ~ opens_with (B "%%EOF") c -> first_part 10 c p -> ascii_text p -> comment_shown c p
| Cs_hex p h : ~ opens_with (B "%PDF") c -> ~ opens_with (B "%%EOF") c -> first_part 10 c p -> ~ ascii_text p -> hex_text p h -> comment_shown c (B "<" ++ h ++ B ">").
Definition short_names : list (bytes * bytes) :=
  [(B "/ASCIIHexDecode", B "AHex"); (B "/ASCII85Decode", B "A85"); (B "/LZWDecode", B "LZW"); (B "/FlateDecode", B "Flate"); (B "/RunLengthDecode", B "RunL");
   (B "/CCITTFaxDecode", B "Fax"); (B "/JBIG2Decode", B "JBIG2"); (B "/DCTDecode", B "DCT"); (B "/JPXDecode", B "JPX"); (B "/Crypt", B "Crypt")].
Inductive filter_shown : obj -> bytes -> Prop :=
| Fs_known n s : In (n, s) short_names -> filter_shown (PStr n) (B "_" ++ s)
| Fs_other o : (forall n, o = PStr n -> ~ In n (map fst short_names)) -> filter_shown o (B "_").
Inductive filters_shown : option obj -> bytes -> Prop :=
| Fi_absent : filters_shown None (B "_")
| Fi_list l ts : Forall2 filter_shown l ts -> filters_shown (Some (PList l)) (concat ts)
| Fi_one o t : (forall l, o <> PList l) -> filter_shown o t -> filters_shown (Some o) t.
(* the size of the encoded data for 100 bytes of data *)
Inductive ratio_shown : bytes -> option bytes -> bytes -> Prop :=
| Rs_empty e : ratio_shown [] e (B "!!")
| Rs_some s e q : 0 < blen s -> q * blen s <= 100 * blen e < (q + 1) * blen s -> ratio_shown s (Some e) (dec q ++ B "%").
Inductive key_shown (show : obj -> bytes) (d : dict) : bytes -> bytes -> Prop :=
| Ks_absent k : dget k d = None \/ dget k d = Some PNone -> key_shown show d k []
| Ks_ref k g n : dget k d = Some (PRef g n) -> key_shown show d k (k ++ B "=" ++ dec n ++ B "," ++ dec g ++ B "  ")
| Ks_value k v : dget k d = Some v -> v <> PNone -> (forall g n, v <> PRef g n) -> key_shown show d k (k ++ B "=" ++ show v ++ B "  ").
Inductive type_shown (show : obj -> bytes) (d : dict) : bytes -> Prop :=
| Ts_absent : dget K_Type d = None \/ dget K_Type d = Some PNone -> type_shown show d []
| Ts_value v : dget K_Type d = Some v -> v <> PNone -> type_shown show d (show v ++ B "  ").
Inductive script_shown (d : dict) : bytes -> Prop :=
| Js_none : dget (B "/JS") d = None -> script_shown d []
| Js_some v : dget (B "/JS") d = Some v -> script_shown d (B "!/JS!  ").
Definition keys_shown (show : obj -> bytes) (d : dict) (keys : list bytes) (t : bytes) : Prop :=
  exists ty js ts, t = ty ++ js ++ concat ts /\ type_shown show d ty /\ script_shown d js /\ Forall2 (key_shown show d) keys ts.
(* the columns of an object: class, main entries, ratio, filters *)
Inductive object_shown (show : obj -> bytes) : obj -> dline -> Prop :=
| Os_dict d l : l_cl l = B "dict" -> keys_shown show d [B "/Linearized"] (l_detail l) -> l_ratio l = [] -> l_filters l = [] -> object_shown show (PDict d) l
| Os_stream d s e l : l_cl l = B "stream" -> keys_shown show d [B "/Root"; B "/Prev"; B "/N"; B "/First"] (l_detail l) ->
    ratio_shown s e (l_ratio l) -> filters_shown (dget (B "/Filter") d) (l_filters l) -> object_shown show (PStream d (Some s) e) l
| Os_other o l : (forall d, o <> PDict d) -> (forall d s e, o <> PStream d s e) -> l_cl l = class_name o -> l_detail l = [] -> l_ratio l = [] -> l_filters l = [] -> object_shown show o l.
Inductive trailer_shown (show : obj -> bytes) : obj -> bytes -> Prop :=
| Tr_hybrid d v t : dget (B "/XRefStm") d = Some v -> keys_shown show d [B "/XRefStm"; B "/Prev"] t -> trailer_shown show (PDict d) t
| Tr_plain d t : dget (B "/XRefStm") d = None -> keys_shown show d [B "/Root"; B "/Prev"] t -> trailer_shown show (PDict d) t.
(* an xref entry is marked when an address reported at that section is its own *)
Definition marked (wrong : list (option Z * list okey)) (pos : option Z) (addr : Z) : Prop :=
  exists er k, In (pos, er) wrong /\ In k er /\ match k with KDir _ _ p => p = AInt addr | KEmb _ _ p => p = addr end.
Definition status (l : dline) (P : Prop) (yes no : bytes) : Prop := (P /\ l_st l = yes) \/ (~ P /\ l_st l = no).
Definition entry_line (wrong : list (option Z * list okey)) (pos : option Z) (num gen off : Z) (used : bool) (l : dline) : Prop :=
  l_macro l = B "-" /\ l_pos l = None /\ l_region l = B "xref" /\ l_iref l = dec num ++ B "," ++ dec gen /\ l_addr l = Some off /\
  l_cl l = (if used then B "inuse" else B "free") /\ status l (marked wrong pos off) (B "-?") (B "-@").
Definition entries_of (l : list xline) : list (Z * Z * Z * bytes) :=
  flat_map (fun x => match x with XEnt off num gen kw => [(off, num, gen, kw)] | XSub _ _ => [] end) l.
(* no xref section has an entry for the direct object at b *)
Definition not_indexed (seq : list (list ient)) (num gen : Z) (b : nat) : Prop :=
  ~ exists s e, In s seq /\ In e s /\ 0 < n_num e /\ entry_at e (KDir num gen (AInt (Z.of_nat b))).
Inductive listed_as (show : obj -> bytes) (t : bytes) (seq : list (list ient)) (wrong : list (option Z * list okey)) : item -> list dline -> Prop :=
| La_comment b e rp l : main_line l b e (B "comment") -> comment_shown (sub t b e) (l_detail l) -> listed_as show t seq wrong (ItReg (RComment b e) rp) [l]
| La_void b e rp l : main_line l b e (B "void") -> listed_as show t seq wrong (ItReg (RVoid b e) rp) [l]
| La_start b e v rp l n : main_line l b e (B "startxref") -> py_int 10 v = Some n -> l_addr l = Some n -> listed_as show t seq wrong (ItReg (RStartxref b e v) rp) [l]
| La_table x rp l ls : main_line l (xt_beg x) (xt_end x) (B "xreftable") -> trailer_shown show (xt_trailer x) (l_detail l) ->
    Forall2 (fun en l => match en with (off, num, gen, kw) => entry_line wrong (Some (Z.of_nat (xt_beg x))) num gen off (beqb kw (B "n")) l end) (entries_of (xt_lines x)) ls ->
    listed_as show t seq wrong (ItReg (RXref x) rp) (l :: ls)
| La_object o rp l b : i_beg o = Some b -> main_line l b (i_end o) (B "ind_obj") -> l_iref l = dec (i_num o) ++ B "," ++ dec (i_gen o) -> object_shown show (i_obj o) l ->
    status l (not_indexed seq (i_num o) (i_gen o) b) (B "?-") (B "@-") -> listed_as show t seq wrong (ItReg (RInd o) rp) [l]
| La_stream bo d tab ls : Forall2 (fun x l => entry_line wrong (option_map Z.of_nat bo) (xs_num (fst x)) (xs_gen (fst x)) (xs_off (fst x)) (negb (xs_free (fst x))) l /\
      l_mode l = match xs_env (fst x) with None => B "abs" | Some e => dec e ++ B "," end) tab ls -> listed_as show t seq wrong (ItXS bo d tab) ls
| La_embedded bo j e n l : e_num e = PInt n -> l_macro l = B "-" -> l_pos l = Some (Z.of_nat (e_pos e)) -> l_seq l = Some (Z.of_nat j) -> l_env l = dec (e_env e) ++ B "," ->
    l_region l = B "ind_obj" -> l_iref l = dec n ++ B "," -> object_shown show (e_obj e) l -> listed_as show t seq wrong (ItEmb bo j e) [l].
(* positions and sizes of the main lines follow each other *)
Inductive covering : Z -> list dline -> Z -> Prop :=
| Cv_nil i : covering i [] i
| Cv_main i z l ls j : l_macro l = B "+" -> l_pos l = Some i -> l_size l = Some z -> 0 < z -> covering (i + z) ls j -> covering i (l :: ls) j
| Cv_other i l ls j : l_macro l = B "-" -> covering i ls j -> covering i (l :: ls) j.
(* a file whose last line has an end *)
Definition lines_end (f : bytes) : Prop := exists g c, f = g ++ [c] /\ (c = 10 \/ c = 13).
