(* Model of the iteration over a document and of the texts that describe it (docstruct.py) *)
From Coq Require Import String.
From Verif Require Import PyBase Model_Filters Model_Objects Model_Filestruct Model_Text Model_Docstruct Model_Api.

Section WithZlib.
Context {ZL : Zlib}.

(* ---------------- iteration ---------------- *)
(* docstruct.py:56-60  DocIterator: the document, the next page, the number of pages *)
Record iterator := mk_iterator { it_doc : doc; it_current : Z; it_end : Z }.
(* docstruct.py:45-47, 56-60.  A /Count that is not an integer is not modelled. *)
Definition doc_iter (d : doc) : res iterator :=
  let* (n, d1) := number_pages d in
  match n with PInt z => Ok (mk_iterator d1 0 z) | _ => Exc EUnsupported end.
(* docstruct.py:62-69  __next__; None for StopIteration.  keep_pages counts the pages in the
   document of the iterator, then edits a copy of it. *)
Definition iter_next (ord : list ref -> list ref) (fuel : nat) (leak : dict) (it : iterator) : res (option doc * dict * iterator) :=
  if it_current it <? it_end it then
    let* (_, d1) := number_pages (it_doc it) in
    let* (nd, leak') := keep_pages ord fuel (it_doc it) leak [it_current it] in
    Ok (Some nd, leak', mk_iterator d1 (it_current it + 1) (it_end it))
  else Ok (None, leak, it).

(* ---------------- what is printed ---------------- *)
Definition LF : bytes := [10].
(* docstruct.py:21-27  __repr__ *)
Definition doc_repr (d : doc) : res bytes :=
  let* chg := changes d in
  Ok (B "<PDF Doc in revision " ++ dec (Z.of_nat (length (d_index d)) - 1) ++ B " with " ++ dec (Z.of_nat (length chg)) ++ B " modified object(s)>").

(* docstruct.py:370-376  the letters of changes *)
Definition chg_letter (a : action) : bytes := match a with Add => B "a" | Upd => B "u" | Del => B "d" end.
(* docstruct.py:146-148, 155  idx.get(i): the last change of the number i *)
Definition chg_status (chg : list change) (i : Z) : option bytes :=
  match filter (fun c => snd (fst c) =? i) (rev chg) with [] => None | c :: _ => Some (chg_letter (snd c)) end.
(* docstruct.py:155-157 *)
Definition cache_status (chg : list change) (i : Z) (o : obj) : bytes :=
  match chg_status chg i with
  | Some s => s
  | None => match o with PNone => B "-" | _ => B "x" end
  end.
Definition padl (w : nat) (s : bytes) : bytes := repeat 32 (w - length s) ++ s.
(* docstruct.py:153-163; n: the length of the cache *)
Fixpoint cache_lines (chg : list change) (n i : Z) (line : bytes) (l : list obj) : bytes :=
  match l with
  | [] => line ++ LF
  | o :: r =>
      let line' := line ++ cache_status chg i o in
      if (i mod 10 =? 9) || (i =? n - 1)
      then padl 5 (dec ((i - i mod 10) / 10) ++ B "_") ++ B " " ++ line' ++ LF ++ cache_lines chg n (i + 1) [] r
      else cache_lines chg n (i + 1) line' r
  end.
(* docstruct.py:144-165  pprint_cache *)
Definition pprint_cache (d : doc) : res bytes :=
  let* chg := changes d in
  Ok (repeat 32 6 ++ B "0123456789" ++ LF ++ cache_lines chg (Z.of_nat (length (d_cache d))) 0 [] (d_cache d)).

(* docstruct.py:167-188  pprint_data_history *)
Definition prov_name (p : prov) : bytes :=
  match p with PvSingle _ => B "single" | PvCont _ => B "continuous" | PvDummy _ => B "dummy" | PvMerge _ _ _ => B "composite" end.
Definition num_or_none (o : option Z) : bytes := match o with None => B "None" | Some z => if z =? 0 then B "None" else dec z end.
Record hist := mk_hist { h_name : bytes; h_size : bytes; h_add : bytes; h_cut : bytes }.
(* docstruct.py:173-182; the cut is looked up with a negative index *)
Definition hist_of (data : list datum) (i : Z) : res hist :=
  let* x := pyget data i in
  let* y := pyget data (- i) in
  let* p := of_opt ETypeError (dt_fdata x) in
  let* r := run_prov p None (-1) in
  let sz := match r with RLen n => n | RBuf _ _ n => n end in
  Ok (mk_hist (prov_name p) (dec sz) (num_or_none (option_map blen (dt_bdata x))) (num_or_none (dt_cut y))).
Definition padr (w : nat) (s : bytes) : bytes := s ++ repeat 32 (w - length s).
Definition hist_line (k : bytes) (f : hist -> bytes) (l : list hist) : bytes :=
  padr 10 k ++ flat_map (fun h => B "| " ++ padr 10 (f h) ++ B " ") l ++ LF.
Definition pprint_data_history (d : doc) : res bytes :=
  let* l := Model_Filestruct.map_res (hist_of (d_data d)) (zseq 0 (length (d_data d))) in
  Ok (hist_line (B "data_f()") h_name l ++ hist_line (B "data_sz") h_size l ++ hist_line (B "add_data") h_add l ++ hist_line (B "eof_cut") h_cut l).

(* docstruct.py:191-215  pprint_page_hierarchy.  show: the text of a Python value. *)
Section Show.
Context (show : obj -> bytes).
Section Kids.
Context (visit : doc -> obj -> Z -> bytes -> res (bytes * Z * doc)).
(* docstruct.py:208-209 *)
Fixpoint kids_text (d : doc) (n : Z) (accu : bytes) (l : list obj) : res (bytes * Z * doc) :=
  match l with
  | [] => Ok (accu, n, d)
  | k :: r => let* (a, m, d1) := visit d k n accu in kids_text d1 m a r
  end.
End Kids.
Definition indent (level : nat) : bytes := repeat 32 (4 * level).
Definition node_text (level : nat) (iref : obj) (kids : nat) : bytes :=
  indent level ++ B " /Pages node at " ++ show iref ++ B ", kids count = " ++ dec (Z.of_nat kids) ++ B ":" ++ LF.
Definition page_text (level : nat) (n : Z) (iref contents : obj) : bytes :=
  indent level ++ B " /Page [" ++ dec n ++ B "] at " ++ show iref ++ B " with content(s) at " ++ show contents ++ LF.
Fixpoint hierarchy (fuel : nat) (level : nat) (d : doc) (iref : obj) (n : Z) (accu : bytes) : res (bytes * Z * doc) :=
  match fuel with
  | O => Loop
  | S f =>
      let* (node, iref', accu1, d1) :=
        (if obj_truthy iref then let* (o, d1) := get_object d iref in Ok (o, iref, accu, d1)
         else let* (c, _, d1) := catalog d in
              let* pr := item K_Pages c in
              let* (p, d2) := get_object d1 pr in
              let* ct := item K_Count p in
              let* (c', d3) := get_object d2 ct in
              Ok (p, pr, accu ++ B "Page count = " ++ show c' ++ LF, d3)) in
      let* ty := item K_Type node in
      if str_is K_Pages ty then
        let* kids := item K_Kids node in
        match kids with
        | PList l => kids_text (hierarchy f (S level)) d1 n (accu1 ++ node_text (S level) iref' (length l)) l
        | _ => Exc EUnsupported
        end
      else if str_is K_Page ty then
        let* ct := item_opt K_Contents node in
        Ok (accu1 ++ page_text (S level) n iref' ct, n + 1, d1)
      else Ok (accu1, n, d1)
  end.
(* the text printed by the outer call, with its end of line *)
Definition pprint_page_hierarchy (fuel : nat) (d : doc) : res (bytes * doc) :=
  let* (a, _, d1) := hierarchy fuel 0 d PNone 0 [] in Ok (a ++ LF, d1).
End Show.

End WithZlib.
