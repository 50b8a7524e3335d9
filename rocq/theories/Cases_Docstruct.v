(* Documents used in the examples, all built with the modelled functions *)
From Coq Require Import String.
From Verif Require Import PyBase Model_Filters Model_Objects Model_Filestruct Model_Text Model_Docstruct Model_Api Spec_Filters.

#[local] Existing Instance store_codec.
Definition get_ok {A} (x : A) (r : res A) : A := match r with Ok a => a | _ => x end.
Definition no_doc : doc := mk_doc [] [] [].

(* blank("A4") and the file written for it *)
Definition blank_doc : doc := Eval vm_compute in get_ok no_doc (blank (B "A4")).
Definition blank_file : bytes := Eval vm_compute in get_ok [] (let* (b, _) := writefile blank_doc in Ok b).
Definition loaded_doc : doc := Eval vm_compute in get_ok no_doc (loads 10 blank_file).

(* the same content in an object stream (5), with an xref stream (4) *)
Definition packed_file : bytes := Eval vm_compute in get_ok []
  (let* (so, _) := squash blank_doc in
   let* s := of_opt ETypeError so in
   let* s2 := force_xref_stream s true [] in
   let* s3 := group_obj_into_stream s2 None [1; 2; 3] in
   let* (b, _) := writefile s3 in Ok b).
Definition packed_doc : doc := Eval vm_compute in get_ok no_doc (loads 10 packed_file).

(* object 3 updated in a second revision, written and loaded *)
Definition updated_file : bytes := Eval vm_compute in get_ok []
  (let* d := update_object packed_doc 3 (PInt 7) in let* (b, _) := writefile d in Ok b).
Definition updated_doc : doc := Eval vm_compute in get_ok no_doc (loads 10 updated_file).
(* a document whose last revision was written with a new xref stream *)
Definition compressed_doc : doc := Eval vm_compute in get_ok no_doc (compress blank_doc).
(* packed_file followed by a revision whose trailer names the xref stream of the first one *)
Definition hybrid_file : bytes := Eval vm_compute in
  packed_file ++ B "xref" ++ [10] ++ B "0 1" ++ [10] ++ B "0000000000 65535 f " ++ [10] ++ B "trailer" ++ [10] ++
  B "<< /Size 6 /Root 1 0 R /Prev 258 /XRefStm 258 >>" ++ [10] ++
  B "startxref" ++ [10] ++ dec (blen packed_file) ++ [10] ++ B "%%EOF" ++ [10].
(* a file whose trailer has the entry /Note (trailer) *)
Definition word_file : bytes := Eval vm_compute in get_ok []
  (let d := blank_initial 100 100 in
   let* (b, _) := writefile (mk_doc (d_index d) (PDict [(K_Root, PRef 0 1); (B "/Note", PBytes (B "(trailer)"))] :: tl (d_cache d)) (d_data d)) in Ok b).
