(* The version of a squashed document, when the catalog was once packed in an object stream *)
From Coq Require Import String.
From Verif Require Import PyBase Model_Filters Model_Objects Model_Filestruct Model_Docstruct Model_Api.
From Verif Require Import Spec_Filters Spec_Objects Spec_Filestruct Spec_Docstruct Spec_Syntax Spec_Files Spec_Streams Spec_Sections.
From Verif Require Import Facts_Base Facts_Spell Cases_Docstruct.

(* a file of version 1.5: objects 2 and 3 (the catalog) are in the object stream 4 *)
Definition packed_objects : list (Z * obj) := [(2, PList []); (3, PDict [(B "/Pages", PRef 0 1)])].
Definition packed_parts : bytes * bytes := Eval vm_compute in objects_words packed_objects [1; 4].
Definition packed_data : bytes := Eval vm_compute in fst packed_parts ++ snd packed_parts.
Definition packed_stm : dict := Eval vm_compute in
  [(B "/Type", PStr (B "/ObjStm")); (B "/N", PInt 2); (B "/First", PInt (blen (fst packed_parts))); (B "/Length", PInt (blen packed_data))].
Definition until_pages : bytes := Eval vm_compute in B "%PDF-1.5" ++ [10].
Definition until_objstm : bytes := Eval vm_compute in until_pages ++ object_words 1 (PDict [(B "/Kids", PList []); (B "/Count", PInt 0)]) ++ [10].
Definition until_xref : bytes := Eval vm_compute in until_objstm ++ stream_words 4 packed_stm packed_data ++ [10].
Definition packed_rows : list xrow :=
  [mk_xrow 0 0 255; mk_xrow 1 (blen until_pages) 0; mk_xrow 2 4 0; mk_xrow 2 4 1; mk_xrow 1 (blen until_objstm) 0; mk_xrow 1 (blen until_xref) 0].
Definition packed_xref : bytes := Eval vm_compute in flat_map (fun x => [xr_type x; xr_two x / 256; xr_two x mod 256; xr_three x]) packed_rows.
Definition packed_xdict : dict := Eval vm_compute in
  [(B "/Type", PStr (B "/XRef")); (B "/W", PList [PInt 1; PInt 2; PInt 1]); (B "/Size", PInt 6); (B "/Root", PRef 0 3); (B "/Length", PInt 24)].
Definition packed_file : bytes := Eval vm_compute in
  until_xref ++ stream_words 5 packed_xdict packed_xref ++ [10] ++ B "startxref" ++ [10] ++ dec (blen until_xref) ++ [10] ++ B "%%EOF" ++ [10].
(* an update gives the catalog a newer version *)
Definition new_catalog : obj := PDict [(B "/Pages", PRef 0 1); (B "/Version", PStr (B "/1.7"))].
Definition until_table : bytes := Eval vm_compute in packed_file ++ object_words 3 new_catalog ++ [10].
Definition newer_table : bytes := Eval vm_compute in
  B "xref" ++ [10] ++ B "3 1" ++ [10] ++ repeat 48 (10 - length (dec (blen packed_file))) ++ dec (blen packed_file) ++ B " 00000 n " ++ [10] ++ B "trailer" ++ [10] ++
  words (PDict [(B "/Root", PRef 0 3); (B "/Size", PInt 6); (B "/Prev", PInt (blen until_xref))]) ++ [10] ++ B "startxref" ++ [10] ++ dec (blen until_table) ++ [10] ++ B "%%EOF" ++ [10].

(* ---- C103 ---- *)
(* the version of the updated file is 1.7; squash reads object 2 before the catalog, which brings
   the old catalog back (see C106_stale_refuted): the new document says 1.5, in its header too *)
Theorem C103_stale_refuted : exists F d v dv s d1 v' s1, F = packed_file ++ object_words 3 new_catalog ++ [10] ++ newer_table /\
  @loads store_codec 1 F = Ok d /\
  @version store_codec d = Ok (v, dv) /\ v = B "1.7" /\
  @squash store_codec d = Ok (Some s, d1) /\ @version store_codec s = Ok (v', s1) /\ v' <> v /\
  d_data s = [mk_datum None None (Some (PvDummy (B "%PDF-" ++ v')))].
Proof.
  exists (packed_file ++ object_words 3 new_catalog ++ [10] ++ newer_table). do 7 eexists. split; [reflexivity|]. split; [vm_compute; reflexivity|].
  split; [vm_compute; reflexivity|]. split; [vm_compute; reflexivity|].
  split; [vm_compute; reflexivity|]. split; [vm_compute; reflexivity|]. split; [discriminate|]. vm_compute. reflexivity.
Qed.
Print Assumptions C103_stale_refuted.
