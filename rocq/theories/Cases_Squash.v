(* Documents used in the examples about squash and concat *)
From Coq Require Import String.
From Verif Require Import PyBase Model_Filters Model_Objects Model_Filestruct Model_Text Model_Docstruct Model_Api Spec_Filters Spec_Pages.
From Verif Require Import Facts_Checks Cases_Docstruct Cases_Pages.

#[local] Existing Instance store_codec.

(* the third page is removed, with object 10 *)
Definition gap_doc : doc := Eval vm_compute in
  match remove_pages (@rev _) 30 paged_doc [] [2] with Ok (d, _) => d | _ => no_doc end.
Definition gap_tree : ptree := Eval vm_compute in match plant 9 gap_doc with Some t => t | None => no_tree end.
Definition squash_doc : doc := Eval vm_compute in match squash gap_doc with Ok (Some d, _) => d | _ => no_doc end.
(* a stream whose dictionary refers to an object that gets a new number *)
Definition form_doc : doc := Eval vm_compute in get_ok no_doc
  (let* d1 := add2 loaded_doc (PInt 1) in
   let* d2 := add2 d1 (PStr (B "/Times")) in
   let* d3 := add2 d2 (PStream [(B "/Font", PRef 0 5)] (Some (B "q")) (Some (B "q"))) in
   update_object d3 4 PNone).
(* page 3 refers to a deleted object *)
Definition dangling_doc : doc := Eval vm_compute in get_ok no_doc
  (let* d1 := add2 loaded_doc (PInt 1) in
   let* d2 := add2 d1 (PInt 2) in
   let* d3 := update_object d2 3 (page 2 [(B "/A", PRef 0 4)]) in
   update_object d3 4 PNone).
(* a file whose trailer has an /Info *)
Definition info_file : bytes := Eval vm_compute in get_ok []
  (let d0 := blank_initial 595 842 in
   let* d1 := add2 (mk_doc (d_index d0) (lset (d_cache d0) 0 (PDict [(K_Root, PRef 0 1); (B "/Info", PRef 0 4)])) (d_data d0))
                (PDict [(B "/Title", PBytes (B "(Title)"))]) in
   let* (b, _) := writefile d1 in Ok b).
Definition info_doc : doc := Eval vm_compute in get_ok no_doc (loads 10 info_file).
Definition joined_doc : doc := Eval vm_compute in get_ok no_doc (concat_docs loaded_doc gap_doc true).
Definition joined_tree : ptree := Eval vm_compute in match plant 9 joined_doc with Some t => t | None => no_tree end.
Definition prefixed_doc : doc := Eval vm_compute in get_ok no_doc (concat_docs gap_doc loaded_doc false).
Definition prefixed_tree : ptree := Eval vm_compute in match plant 9 prefixed_doc with Some t => t | None => no_tree end.
