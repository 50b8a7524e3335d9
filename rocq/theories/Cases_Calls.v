(* Documents used in the examples about the calls of the api *)
From Coq Require Import String.
From Verif Require Import PyBase Model_Filters Model_Objects Model_Filestruct Model_Text Model_Docstruct Model_Api Spec_Filters Cases_Docstruct.

#[local] Existing Instance store_codec.
Definition add2 (d : doc) (o : obj) : res doc := let* (d1, _) := add_object d o in Ok d1.
Definition raw (x : dict) (e : bytes) : obj := PStream x (Some e) (Some e).
(* a page with three content streams, an annotation array, an image, metadata *)
Definition calls_file : bytes := Eval vm_compute in get_ok []
  (let d := blank_initial 100 100 in
   let d0 := mk_doc (d_index d) (PDict [(K_Root, PRef 0 1); (K_Info, PRef 0 10)] :: tl (d_cache d)) (d_data d) in
   let* d1 := update_object d0 3 (PDict [(K_Type, PStr K_Page); (K_Parent, PRef 0 2); (K_MediaBox, PList [PInt 0; PInt 0; PInt 9; PInt 9]);
                (K_Contents, PList [PRef 0 4; PRef 0 5]); (K_Annots, PRef 0 9)]) in
   let* d2 := add2 d1 (raw [] (B "q")) in                                                       (* 4 *)
   let* d3 := add2 d2 (PList [PRef 0 6; PRef 0 7]) in                                           (* 5 *)
   let* d4 := add2 d3 (raw [(K_Filter, PStr V_Flate)] (B "BT ET")) in                           (* 6 *)
   let* d5 := add2 d4 (raw [(K_Filter, PStr (B "/ASCIIHexDecode"))] (B "51")) in                (* 7 *)
   let* d6 := add2 d5 (raw [(K_Filter, PStr (B "/DCTDecode"))] (B "JFIF")) in                   (* 8 *)
   let* d7 := add2 d6 (PList [PRef 0 12]) in                                                    (* 9 *)
   let* d8 := add2 d7 (PDict [(B "/Title", PBytes (B "(Report)")); (B "/Author", PRef 0 11); (B "/Subject", PBytes (B "()"))]) in   (* 10 *)
   let* d9 := add2 d8 (PBytes (B "(Ann)")) in                                                   (* 11 *)
   let* d10 := add2 d9 (PDict [(K_Type, PStr V_Annot)]) in                                      (* 12 *)
   let* d11 := add2 d10 (raw [(K_Filter, PList [PStr V_Flate])] (B "Q")) in                     (* 13 *)
   let* d12 := add2 d11 (raw [(K_Filter, PStr V_Flate); (K_DecodeParms, PDict [(K_Predictor, PInt 12); (K_Columns, PInt 2)])] ([2] ++ B "ab" ++ [2; 1; 1])) in (* 14 *)
   let* (b, _) := writefile d12 in Ok b).
Definition calls_doc : doc := Eval vm_compute in get_ok no_doc (loads 10 calls_file).
