(* A file made by another program, with two revisions, used in the examples about incremental
   updates *)
From Coq Require Import String.
From Verif Require Import PyBase Model_Filters Model_Objects Model_Filestruct Model_Text Model_Docstruct Model_Api Spec_Filters.
From Verif Require Import Cases_Docstruct Cases_Pages.

#[local] Existing Instance store_codec.

Definition foreign_file : bytes := Eval vm_compute in B "%PDF-1.4
%made by another program
1 0 obj
<</Type/Catalog/Pages 2 0 R>>
endobj
2 0 obj <</Type /Pages /Kids [3 0 R] /Count 1>>
endobj
3 0 obj<</Type/Page/Parent 2 0 R/MediaBox[0 0 612 792]
/Contents 4 0 R>>
endobj
4 0 obj
<</Length 4>>
stream
q Q 
endstream
endobj
xref
0 5
0000000000 65535 f 
0000000034 00000 n 
0000000079 00000 n 
0000000134 00000 n 
0000000214 00000 n 
trailer
<</Size 5/Root 1 0 R/ID[<ab01><cd02>]>>
startxref
265
%%EOF
4 0 obj
<</Length 6>>
stream
q Q
q
endstream
endobj
5 0 obj(hello)
endobj
xref
4 2
0000000442 00000 n 
0000000494 00000 n 
trailer
<</Size 6 /Root 1 0 R /Prev 265 /ID[<ab01><ef>]>>
startxref
516
%%EOF
".
Definition foreign_doc : doc := Eval vm_compute in get_ok no_doc (loads 3 foreign_file).
(* page 3 is updated, then a stream is added *)
Definition foreign_page : obj := PDict [(K_Type, PStr K_Page); (K_Parent, PRef 0 2); (B "/Contents", PList [PRef 0 4; PRef 0 6])].
Definition foreign_updated : doc := Eval vm_compute in get_ok no_doc (update_object foreign_doc 3 foreign_page).
Definition foreign_edited : doc := Eval vm_compute in get_ok no_doc (add2 foreign_updated (PStream [] (Some (B "Q")) (Some (B "Q")))).
Definition foreign_saved : doc := Eval vm_compute in get_ok no_doc (commit foreign_edited).
Definition foreign_out : bytes := Eval vm_compute in match writefile foreign_edited with Ok (b, _) => b | _ => [] end.
Definition foreign_again : doc := Eval vm_compute in get_ok no_doc (loads 4 foreign_out).

(* a file with an object stream and an xref stream *)
Definition stream_file : bytes := Eval vm_compute in B "%PDF-1.5
%made by another program
1 0 obj
<</Type/Catalog/Pages 2 0 R>>
endobj
4 0 obj<</Length 4>>
stream
q Q 
endstream
endobj
5 0 obj
<</Type/ObjStm/N 2/First 9/Length 109>>
stream
2 0 3 36 <</Type/Pages/Kids[3 0 R]/Count 1>> <</Type/Page/Parent 2 0 R/MediaBox[0 0 612 792]/Contents 4 0 R>>
endstream
endobj
6 0 obj
<</Type/XRef/Size 7/W[1 2 1]/Root 1 0 R/ID[<ab01><cd02>]/Length 28>>
stream
" ++
  [0; 0; 0; 255; 1; 0; 34; 0; 2; 0; 5; 0; 2; 0; 5; 1; 1; 0; 79; 0; 1; 0; 129; 0; 1; 1; 55; 0] ++
  B "
endstream
endobj
startxref
311
%%EOF
".
Definition stream_doc : doc := Eval vm_compute in get_ok no_doc (loads 3 stream_file).
(* the catalog is updated, then the file is saved and opened again *)
Definition stream_catalog : obj := PDict [(K_Type, PStr (B "/Catalog")); (B "/Pages", PRef 0 2); (B "/Lang", PBytes (B "(en)"))].
Definition stream_edited : doc := Eval vm_compute in get_ok no_doc (update_object stream_doc 1 stream_catalog).
Definition stream_saved : doc := Eval vm_compute in get_ok no_doc (commit stream_edited).
Definition stream_out : bytes := Eval vm_compute in match writefile stream_edited with Ok (b, _) => b | _ => [] end.
Definition stream_again : doc := Eval vm_compute in get_ok no_doc (loads 4 stream_out).
(* a string is added, then the file is saved and opened again *)
Definition stream_edited2 : doc := Eval vm_compute in get_ok no_doc (add2 stream_again (PBytes (B "(hello)"))).
Definition stream_saved2 : doc := Eval vm_compute in get_ok no_doc (commit stream_edited2).
Definition stream_out2 : bytes := Eval vm_compute in match writefile stream_edited2 with Ok (b, _) => b | _ => [] end.
Definition stream_again2 : doc := Eval vm_compute in get_ok no_doc (loads 5 stream_out2).

(* the same file, with an xref stream that does not list itself *)
Definition unlisted_file : bytes := Eval vm_compute in B "%PDF-1.5
%made by another program
1 0 obj
<</Type/Catalog/Pages 2 0 R>>
endobj
4 0 obj<</Length 4>>
stream
q Q 
endstream
endobj
5 0 obj
<</Type/ObjStm/N 2/First 9/Length 109>>
stream
2 0 3 36 <</Type/Pages/Kids[3 0 R]/Count 1>> <</Type/Page/Parent 2 0 R/MediaBox[0 0 612 792]/Contents 4 0 R>>
endstream
endobj
6 0 obj
<</Type/XRef/Size 6/W[1 2 1]/Root 1 0 R/ID[<ab01><cd02>]/Length 24>>
stream
" ++
  [0; 0; 0; 255; 1; 0; 34; 0; 2; 0; 5; 0; 2; 0; 5; 1; 1; 0; 79; 0; 1; 0; 129; 0] ++
  B "
endstream
endobj
startxref
311
%%EOF
".
Definition unlisted_doc : doc := Eval vm_compute in get_ok no_doc (loads 3 unlisted_file).
Definition unlisted_edited : doc := Eval vm_compute in get_ok no_doc (add2 unlisted_doc (PBytes (B "(hello)"))).
Definition unlisted_saved : doc := Eval vm_compute in get_ok no_doc (commit unlisted_edited).
Definition unlisted_out : bytes := Eval vm_compute in match writefile unlisted_edited with Ok (b, _) => b | _ => [] end.
Definition unlisted_again : doc := Eval vm_compute in get_ok no_doc (loads 4 unlisted_out).

(* page 3, a member of the object stream, is updated; then its neighbour is read *)
Definition member_page : obj := PDict [(K_Type, PStr K_Page); (K_Parent, PRef 0 2); (B "/Rotate", PInt 90)].
Definition member_edited : doc := Eval vm_compute in get_ok no_doc (update_object stream_doc 3 member_page).
Definition member_read : doc := Eval vm_compute in match get_object member_edited (PRef 0 2) with Ok (_, d) => d | _ => no_doc end.
Definition member_saved : doc := Eval vm_compute in match writefile member_read with Ok (_, d) => d | _ => no_doc end.
Definition member_out : bytes := Eval vm_compute in match writefile member_read with Ok (b, _) => b | _ => [] end.
Definition member_again : doc := Eval vm_compute in get_ok no_doc (loads 4 member_out).
