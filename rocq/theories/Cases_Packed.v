(* Documents used in the examples about object streams and compress *)
From Coq Require Import String.
From Verif Require Import PyBase Model_Filters Model_Objects Model_Filestruct Model_Text Model_Docstruct Model_Api Spec_Filters Spec_Pages.
From Verif Require Import Cases_Docstruct Cases_Pages Cases_Squash.

#[local] Existing Instance store_codec.

(* three pages, a gap in the numbers, a stream in hexadecimal and a plain stream *)
Definition stream_doc : doc := Eval vm_compute in get_ok no_doc
  (let* d1 := add2 gap_doc (PStream [(K_Filter, PStr (B "/ASCIIHexDecode"))] (Some (B "q Q")) (Some (B "712051"))) in
   add2 d1 (PStream [(B "/X", PInt 3)] (Some (B "BT ET")) (Some (B "BT ET")))).
Definition compressed_doc : doc := Eval vm_compute in get_ok no_doc (compress stream_doc).
Definition compressed_file : bytes := Eval vm_compute in match writefile compressed_doc with Ok (b, _) => b | _ => [] end.
Definition reloaded_doc : doc := Eval vm_compute in get_ok no_doc (loads 10 compressed_file).
(* what compress commits *)
Definition packed_doc : doc := Eval vm_compute in get_ok no_doc
  (let* (so, _) := squash stream_doc in
   let* s := of_opt ETypeError so in
   let* s1 := update_version s V_15 in
   let* s2 := force_xref_stream s1 false V_Flate in
   let* s3 := group_obj_into_stream s2 None [] in
   let* (l, s4) := list_streams s3 in
   apply_filter s4 l V_Flate).
(* the compressed file without its second page *)
Definition shrunk_doc : doc := Eval vm_compute in get_ok no_doc
  (let* (d, _) := remove_pages (@rev _) 30 reloaded_doc [] [1] in Ok d).
(* and with two streams more: 14 and 15 *)
Definition extended_doc : doc := Eval vm_compute in get_ok no_doc
  (let* d1 := add2 shrunk_doc (PStream [] (Some (B "first")) (Some (B "first"))) in
   add2 d1 (PStream [] (Some (B "second")) (Some (B "second")))).
Definition overwritten_doc : doc := Eval vm_compute in get_ok no_doc
  (let* d1 := compress extended_doc in let* (b, _) := writefile d1 in loads 10 b).
