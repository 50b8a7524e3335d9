(* Documents with page trees used in the examples, all built with the modelled functions *)
From Coq Require Import String.
From Verif Require Import PyBase Model_Filters Model_Objects Model_Filestruct Model_Text Model_Docstruct Model_Api Spec_Filters Spec_Pages.
From Verif Require Import Facts_Checks Cases_Docstruct.

#[local] Existing Instance store_codec.

Definition box : obj := PList [PInt 0; PInt 0; PInt 595; PInt 842].
Definition page (parent : Z) (more : dict) : obj := PDict ([(K_Type, PStr K_Page); (K_Parent, PRef 0 parent)] ++ more).
Definition add2 (d : doc) (o : obj) : res doc := let* (d1, _) := add_object d o in Ok d1.
(* two inner nodes under the root; object 9 is used by the pages 5 and 6, object 10 by page 6
   only; page 8 has an annotation whose /P leads back to it *)
Definition paged_file : bytes := Eval vm_compute in get_ok []
  (let* d1 := update_object blank_doc 2 (PDict [(K_Type, PStr K_Pages); (K_Kids, PList [PRef 0 3; PRef 0 4; PRef 0 7]); (K_Count, PInt 4); (K_Rotate, PInt 90); (K_MediaBox, box)]) in
   let* d2 := update_object d1 3 (page 2 []) in
   let* d3 := add2 d2 (PDict [(K_Type, PStr K_Pages); (K_Kids, PList [PRef 0 5; PRef 0 6]); (K_Count, PInt 2); (K_Parent, PRef 0 2); (K_Rotate, PInt 180)]) in
   let* d4 := add2 d3 (page 4 [(K_Resources, PDict [(B "/F1", PRef 0 9)])]) in
   let* d5 := add2 d4 (page 4 [(K_Resources, PDict [(B "/F1", PRef 0 9); (B "/F2", PRef 0 10)]); (K_Rotate, PInt 0)]) in
   let* d6 := add2 d5 (PDict [(K_Type, PStr K_Pages); (K_Kids, PList [PRef 0 8]); (K_Count, PInt 1); (K_Parent, PRef 0 2)]) in
   let* d7 := add2 d6 (page 7 [(B "/Annots", PList [PRef 0 11])]) in
   let* d8 := add2 d7 (PStr (B "/Times")) in
   let* d9 := add2 d8 (PStr (B "/Courier")) in
   let* d10 := add2 d9 (PDict [(K_P, PRef 0 8)]) in
   let* (b, _) := writefile d10 in Ok b).
Definition paged_doc : doc := Eval vm_compute in get_ok no_doc (loads 10 paged_file).
Definition no_tree : ptree := Leaf PNone [].
Definition paged_tree : ptree := Eval vm_compute in match plant 9 paged_doc with Some t => t | None => no_tree end.
Definition blank_tree : ptree := Eval vm_compute in match plant 9 loaded_doc with Some t => t | None => no_tree end.
(* an array with a reference to itself *)
Definition cyclic_doc : doc := Eval vm_compute in get_ok no_doc (update_object loaded_doc 3 (PList [PInt 1; PRef 0 3])).
