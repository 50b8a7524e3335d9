(* Model of pdfsyntax/api.py: loading, writing and editing documents *)
From Coq Require Import String.
From Verif Require Import PyBase Model_Filters Model_Objects Model_Filestruct Model_Text Model_Docstruct.

Section WithZlib.
Context {ZL : Zlib}.

(* api.py:43-53  doc_constructor.  A row whose last cell is None has no element in data;
   another cell there has a position, otherwise KeyError *)
Fixpoint eof_data (p : prov) (index : list (list slot)) : res (list datum) :=
  match index with
  | [] => Ok []
  | row :: r =>
      let* s := pyget row (-1) in
      match s with
      | SNone => eof_data p r
      | _ => let* e := as_dict s in
             let* q := pos_int e in
             let* c := eof_cut q p in
             let* t := eof_data p r in
             Ok (mk_datum (Some c) None (Some p) :: t)
      end
  end.
Definition doc_initial (fuel : nat) (p : prov) : res doc :=
  let* (chrono, nxt, nb) := build_xref_sequence fuel p in
  let* index := build_index chrono nxt nb in
  let* data := eof_data p index in
  let index' := map (@removelast slot) index in
  let* cache := build_cache p index' in
  Ok (mk_doc index' cache data).
Definition doc_constructor (fuel : nat) (p : prov) : res doc :=
  let* d := doc_initial fuel p in commit d.

(* api.py:84-88  loads; api.py:79-82 load in mode SINGLE (and 91-95 readfile) *)
Definition loads (fuel : nat) (b : bytes) : res doc := doc_constructor fuel (PvSingle b).

(* api.py:25-41  PAPER_SIZES; the values of in2pt and mm2pt (floating point) are computed *)
Definition PAPER_SIZES : list (bytes * (Z * Z)) := Eval vm_compute in
  [(B "US Tabloid", (792, 1224)); (B "US Legal", (612, 1008)); (B "US Letter", (612, 792));
   (B "A0", (2384, 3370)); (B "A1", (1684, 2384)); (B "A2", (1191, 1684)); (B "A3", (842, 1191));
   (B "A4", (595, 842)); (B "A5", (420, 595)); (B "A6", (298, 420)); (B "A7", (210, 298));
   (B "A8", (147, 210)); (B "A9", (105, 147)); (B "A10", (74, 105))].
Fixpoint paper_size (k : bytes) (l : list (bytes * (Z * Z))) : option (Z * Z) :=
  match l with [] => None | (k', v) :: r => if beqb k k' then Some v else paper_size k r end.

Definition V_Catalog := Eval vm_compute in B "/Catalog".
Definition blank_header := Eval vm_compute in B "%PDF-1.4".
(* api.py:56-76  blank *)
Definition blank_initial (x y : Z) : doc :=
  let e n := SDict (with_dver (Some 0) (with_over (Some 0) (ient0 n 0))) in
  mk_doc [[e 0; e 1; e 2; e 3]]
    [PDict [(K_Root, PRef 0 1)];
     PDict [(K_Type, PStr V_Catalog); (K_Pages, PRef 0 2)];
     PDict [(K_Type, PStr K_Pages); (K_Kids, PList [PRef 0 3]); (K_Count, PInt 1)];
     PDict [(K_Type, PStr K_Page); (K_Parent, PRef 0 2); (K_MediaBox, PList [PInt 0; PInt 0; PInt x; PInt y]);
            (K_Resources, PDict [])]]
    [mk_datum None None (Some (PvDummy blank_header))].
Definition blank (size : bytes) : res doc :=
  let* (x, y) := of_opt EKeyError (paper_size size PAPER_SIZES) in
  commit (blank_initial x y).

(* api.py:98-130  writefile: the bytes written, and the document returned *)
Fixpoint eof_revisions (l : list datum) : nat :=
  match l with x :: r => match dt_cut x with Some _ => S (eof_revisions r) | None => O end | [] => O end.
Fixpoint fragments (l : list datum) : res bytes :=
  match l with
  | [] => Ok []
  | x :: r => let* b := of_opt EKeyError (dt_bdata x) in let* t := fragments r in Ok (b ++ t)
  end.
(* prov[0][prov[1]:eof_cut] *)
Definition file_prefix (p : prov) (cut : Z) : res bytes :=
  let* (t, a0, _) := read_at p 0 cut in
  if cut <? 0 then Exc EUnsupported else Ok (sub t a0 (Z.to_nat cut)).
Definition writefile (d0 : doc) : res (bytes * doc) :=
  let* d := commit d0 in
  let nb := length (d_index d) in
  let data := d_data d in
  if Nat.ltb (length data) nb then Exc EIndexError
  else
    let k := eof_revisions (firstn nb data) in
    let* base := (match k with
                  | O => Ok []
                  | S i => let* x := pyget data (Z.of_nat i) in
                           let* c := of_opt EKeyError (dt_cut x) in
                           let* y := pyget data 0 in
                           let* p := of_opt EKeyError (dt_fdata y) in
                           file_prefix p c
                  end) in
    let* more := fragments (firstn (nb - 1 - k) (skipn k data)) in
    Ok (base ++ more, d).

(* api.py:157-165  metadata; a value other than a byte string is not modelled *)
Definition METADATA_ATTRS : list bytes := Eval vm_compute in
  [B "/Title"; B "/Author"; B "/Subject"; B "/Keywords"; B "/Creator"; B "/Producer"; B "/CreationDate"; B "/ModDate"].
Fixpoint metadata_of (d : doc) (i : dict) (l : list bytes) : res (list (bytes * option bytes) * doc) :=
  match l with
  | [] => Ok ([], d)
  | k :: r =>
      let* (o, d1) := get_object d (match dget k i with Some v => v | None => PNone end) in
      let* v := (match o with
                 | PNone => Ok None
                 | PBytes s => let* t := text_string s in Ok (match t with [] => None | _ => Some t end)
                 | _ => Exc EUnsupported
                 end) in
      let* (m, d2) := metadata_of d1 i r in
      Ok ((skipn 1 k, v) :: m, d2)
  end.
Definition metadata (d : doc) : res (list (bytes * option bytes) * doc) :=
  let* (o, d1) := info d in
  let* i := (if obj_truthy o then match o with PDict i => Ok i | _ => Exc EAttributeError end else Ok []) in
  metadata_of d1 i METADATA_ATTRS.

(* api.py:179-183  page_layouts *)
Definition layout_of (p : dict) : res (obj * obj) :=
  let* m := of_opt EKeyError (dget K_MediaBox p) in
  Ok (m, match dget K_Rotate p with Some r => r | None => PNone end).
Definition page_layouts (fuel : nat) (d : doc) (leak : dict) (max_nb : option Z) : res (list (obj * obj) * dict * doc) :=
  let* (pl, leak', d1) := pages fuel d leak max_nb in
  let* l := map_res layout_of pl in
  Ok (l, leak', d1).

(* api.py:186-201  rotate; angles that are true or a non-zero real number are not modelled *)
Definition angle (o : obj) (degrees : Z) : res obj :=
  if obj_truthy o then
    match o with
    | PInt z => Ok (PInt ((z + degrees) mod 360))
    | PBool _ | PReal _ _ => Exc EUnsupported
    | _ => Exc ETypeError
    end
  else Ok (PInt (degrees mod 360)).
Definition rotate_one (d : doc) (num : obj) (old : obj) (degrees : Z) : res doc :=
  let* (o, d1) := get_object d num in
  let* x := dict_of o in
  let* v := angle old degrees in
  let* r := (match num with PRef g n => Ok (g, n) | _ => Exc EAttributeError end) in
  update_object d1 (snd r) (PDict (dset K_Rotate v x)).
Fixpoint rotate_all (d : doc) (c : list (obj * dict)) (degrees : Z) (l : list (Z * obj)) : res doc :=
  match l with
  | [] => Ok d
  | (nb, old) :: r =>
      let* x := pyget c nb in
      let* d1 := rotate_one d (fst x) old degrees in
      rotate_all d1 c degrees r
  end.
Fixpoint numbered {A} (i : Z) (l : list A) : list (Z * A) :=
  match l with [] => [] | x :: r => (i, x) :: numbered (i + 1) r end.
Definition rotate (fuel : nat) (d : doc) (leak : dict) (degrees : Z) (pgs : list Z) : res (doc * dict) :=
  let* (pl, leak1, d1) := page_layouts fuel d leak None in
  let work i := match pgs with [] => true | _ => existsb (Z.eqb i) pgs end in
  let a := map (fun x => (fst x, snd (snd x))) (filter (fun x => work (fst x)) (numbered 0 pl)) in
  let* (c, leak2, d2) := flat_page_tree fuel d1 leak1 None in
  let* cl := of_opt ETypeError c in
  let* d3 := rotate_all d2 cl degrees a in
  Ok (d3, leak2).

(* api.py:204-211  list_streams *)
Fixpoint streams_of (d : doc) (l : list ref) : res (list Z * doc) :=
  match l with
  | [] => Ok ([], d)
  | r :: t =>
      let* (o, d1) := get_object d (PRef (fst r) (snd r)) in
      let* (m, d2) := streams_of d1 t in
      Ok (match o with PStream _ _ _ => snd r :: m | _ => m end, d2)
  end.
Definition list_streams (d : doc) : res (list Z * doc) :=
  let* l := in_use d (-1) in streams_of d l.

(* docstruct.py:297-302  obj *)
Definition obj_at (d : doc) (num : Z) : res (obj * doc) :=
  let* row := last_row d in
  let* s := pyget row num in
  let* e := as_dict s in
  get_object d (PRef (n_gen e) num).

(* api.py:214-233  apply_filter; the continue of the inner loop has no effect *)
Definition filter_one (d : doc) (num : Z) (flt : bytes) : res doc :=
  let* (o, d1) := obj_at d num in
  let* (x, st) := (match o with
                   | PStream x st _ => Ok (x, st)
                   | _ => Exc ETypeError
                   end) in
  let* same := (match dget K_Filter x with
                | None => Ok false
                | Some (PStr f) => Ok (beqb f flt)
                | Some (PBytes _) => Ok false
                | Some _ => Exc EAttributeError
                end) in
  if same : bool then Ok d1
  else
    let x' := match dget K_Filter x, flt with
              | Some _, [] => ddel K_Filter x
              | _, _ => dset K_Filter (PStr flt) x
              end in
    let* c := of_opt ETypeError st in
    let* (s, _) := forge_stream x' c in
    update_object d1 num s.
Fixpoint apply_filter (d : doc) (streams : list Z) (flt : bytes) : res doc :=
  match streams with
  | [] => Ok d
  | n :: r => let* d1 := filter_one d n flt in apply_filter d1 r flt
  end.

(* api.py:236-258  add_text_annotation; the contents is a str, written as it stands *)
Definition K_Subtype := Eval vm_compute in B "/Subtype".
Definition K_Rect := Eval vm_compute in B "/Rect".
Definition K_Contents := Eval vm_compute in B "/Contents".
Definition K_Open := Eval vm_compute in B "/Open".
Definition K_Annots := Eval vm_compute in B "/Annots".
Definition V_Annot := Eval vm_compute in B "/Annot".
Definition V_Text := Eval vm_compute in B "/Text".
Definition annotation (text : bytes) (rect : list obj) (opened : bool) : obj :=
  PDict [(K_Type, PStr V_Annot); (K_Subtype, PStr V_Text); (K_Rect, PList rect);
         (K_Contents, PStr ([40] ++ text ++ [41])); (K_Open, PBool opened)].
Definition add_text_annotation (fuel : nat) (d : doc) (leak : dict) (page_num : Z) (text : bytes)
           (rect : list obj) (opened : bool) : res (doc * dict) :=
  let* (d1, a) := add_object d (annotation text rect opened) in
  let* (c, leak1, d2) := flat_page_tree fuel d1 leak None in
  let* cl := of_opt ETypeError c in
  let* x := pyget cl page_num in
  let* (pg, d3) := get_object d2 (fst x) in
  let* p := dict_of pg in
  let ar := PRef (fst a) (snd a) in
  match dget K_Annots p with
  | Some ao =>
      let* (av, d4) := get_object d3 ao in
      let* l := (match av with PList l => Ok l | _ => Exc EAttributeError end) in
      let* r := (match ao with PRef g n => Ok (g, n) | _ => Exc EAttributeError end) in
      let* d5 := update_object d4 (snd r) (PList (l ++ [ar])) in
      Ok (d5, leak1)
  | None =>
      let* (d4, b) := add_object d3 (PList [ar]) in
      let* r := (match fst x with PRef g n => Ok (g, n) | _ => Exc EAttributeError end) in
      let* d5 := update_object d4 (snd r) (PDict (dset K_Annots (PRef (fst b) (snd b)) p)) in
      Ok (d5, leak1)
  end.

(* api.py:300-320  compress *)
Definition V_15 := Eval vm_compute in B "1.5".
Definition V_Flate := Eval vm_compute in B "/FlateDecode".
Definition compress (d : doc) : res doc :=
  let* (so, _) := squash d in
  let* s := of_opt ETypeError so in
  let* (v, s0) := version s in
  let* s1 := (if str_ltb v V_15 then update_version s0 V_15 else Ok s0) in
  let* s2 := force_xref_stream s1 false V_Flate in
  let* envs := envelopes s2 in
  let* s3 := group_obj_into_stream s2 (match envs with [] => None | (e, _) :: _ => Some e end) [] in
  let* (l, s4) := list_streams s3 in
  let* s5 := apply_filter s4 l V_Flate in
  commit s5.

(* api.py:323-338  get_page_contents.  Only lists are iterated over *)
Fixpoint contents2 (d : doc) (l : list obj) : res (list obj * doc) :=
  match l with
  | [] => Ok ([], d)
  | c :: r => let* (o, d1) := get_object d c in let* (t, d2) := contents2 d1 r in Ok (o :: t, d2)
  end.
Fixpoint contents1 (d : doc) (l : list obj) : res (list obj * doc) :=
  match l with
  | [] => Ok ([], d)
  | c :: r =>
      let* (o, d1) := get_object d c in
      let* (a, d2) := contents2 d1 (match o with PList x => x | _ => [o] end) in
      let* (t, d3) := contents1 d2 r in
      Ok (a ++ t, d3)
  end.
Definition get_page_contents (fuel : nat) (d : doc) (leak : dict) (page_num : Z) : res (list obj * dict * doc) :=
  let* (c, leak1, d1) := flat_page_tree fuel d leak None in
  let* cl := of_opt ETypeError c in
  let* x := pyget cl page_num in
  let* (pg, d2) := get_object d1 (fst x) in
  let* i := item K_Contents pg in
  let* l := (match i with PRef _ _ => Ok [i] | PList l => Ok l | _ => Exc EUnsupported end) in
  let* (r, d3) := contents1 d2 l in
  Ok (r, leak1, d3).

End WithZlib.
