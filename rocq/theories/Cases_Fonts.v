(* Documents used in the examples about fonts *)
From Coq Require Import String.
From Verif Require Import PyBase Model_Filters Model_Objects Model_Filestruct Model_Text Model_Docstruct Model_Api Model_Graphics Model_Layout Model_Fonts.
From Verif Require Import Spec_Filters Spec_Text Cases_Docstruct Cases_Calls.

#[local] Existing Instance store_codec.
Definition arial_map : list citem := [CWord (PStr (B "begincmap")); CSpace 0 65535; CChars [(1, [72; 233])]; CRanges [RTo 2 4 8364]].
Definition arial_body : bytes := Eval vm_compute in let s := get_ok [] (serialize (PList (cmap_code 2 arial_map))) in firstn (length s - 4) (skipn 2 s).
Definition fonts_page (fs : dict) (c : list obj) : obj :=
  PDict [(K_Type, PStr K_Page); (K_Parent, PRef 0 2); (K_MediaBox, PList [PInt 0; PInt 0; PInt 9; PInt 9]); (K_Contents, PList c);
         (K_Resources, PDict [(K_Font, PDict fs)])].
Definition fonts_start : res doc :=
   let* d1 := update_object (blank_initial 100 100) 3 (fonts_page [(B "/F1", PRef 0 5); (B "/F2", PRef 0 6)] [PRef 0 8]) in
   let* d2 := update_object d1 2 (PDict [(K_Type, PStr K_Pages); (K_Kids, PList [PRef 0 3; PRef 0 4]); (K_Count, PInt 2)]) in
   let* d3 := add2 d2 (fonts_page [(B "/G", PRef 0 5)] []) in                                                          (* 4 *)
   let* d4 := add2 d3 (PDict [(K_Type, PStr K_Font); (K_Subtype, PStr (B "/Type1")); (K_BaseFont, PStr (B "/Helvetica"));
                              (K_FirstChar, PInt 65); (K_Widths, PList [PInt 722; PInt 667])]) in                      (* 5 *)
   let* d5 := add2 d4 (PDict [(K_Type, PStr K_Font); (K_Subtype, PStr (B "/Type0")); (K_BaseFont, PStr (B "/Arial"));
                              (K_Encoding, PStr (B "/Identity-H")); (K_Descendants, PList [PRef 0 9]); (K_ToUnicode, PRef 0 7)]) in (* 6 *)
   let* d6 := add2 d5 (raw [] arial_body) in                                                                           (* 7 *)
   let* d7 := add2 d6 (raw [] (B "BT /F1 10 Tf 1 0 0 1 10 700 Tm (AB) Tj /F2 10 Tf 1 0 0 1 10 680 Tm <00010003> Tj ET")) in (* 8 *)
   add2 d7 (PDict [(K_Type, PStr K_Font); (K_W, PList [PInt 1; PList [PInt 400; PInt 450]; PInt 7; PInt 9; PInt 600]); (K_DW, PInt 900)]). (* 9 *)
Definition fonts_saved (f : doc -> res doc) : doc :=
  get_ok no_doc (let* d := fonts_start in let* d1 := f d in let* (b, _) := writefile d1 in loads 10 b).
Definition fonts_doc : doc := Eval vm_compute in fonts_saved (fun d => Ok d).
(* a page that has the resources of its parent *)
Definition fonts_inherited : doc := Eval vm_compute in fonts_saved (fun d =>
  let* d1 := update_object d 4 (PDict [(K_Type, PStr K_Page); (K_Parent, PRef 0 2); (K_Contents, PRef 0 8)]) in
  update_object d1 2 (PDict [(K_Type, PStr K_Pages); (K_Kids, PList [PRef 0 3; PRef 0 4]); (K_Count, PInt 2);
                             (K_Resources, PDict [(K_Font, PDict [(B "/F1", PRef 0 5); (B "/F2", PRef 0 6)])])])).
(* the fonts of a page given by reference *)
Definition fonts_indirect : doc := Eval vm_compute in fonts_saved (fun d =>
  let* d1 := add2 d (PDict [(B "/F1", PRef 0 5)]) in
  update_object d1 4 (PDict [(K_Type, PStr K_Page); (K_Parent, PRef 0 2); (K_Contents, PRef 0 8); (K_Resources, PDict [(K_Font, PRef 0 10)])])).
(* a font without a name of its own *)
Definition fonts_nameless : doc := Eval vm_compute in fonts_saved (fun d =>
  update_object d 6 (PDict [(K_Type, PStr K_Font); (K_Subtype, PStr (B "/Type3"))])).
(* a font with two names on a page *)
Definition fonts_twice : doc := Eval vm_compute in fonts_saved (fun d => update_object d 4 (fonts_page [(B "/G", PRef 0 5); (B "/H", PRef 0 5)] [])).
