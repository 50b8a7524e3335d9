(* Hybrid-reference files used in the examples: the objects of blank_file, an object 4 and a
   cross-reference stream 5 named by the trailer of the table *)
From Coq Require Import String.
From Verif Require Import PyBase Model_Filters Model_Objects Model_Filestruct Model_Docstruct Model_Api Spec_Filters Cases_Docstruct.

Definition hy_object : bytes := Eval vm_compute in B "4 0 obj" ++ [10] ++ B "42" ++ [10] ++ B "endobj" ++ [10].
Definition hy_pos : Z := Eval vm_compute in 208 + blen hy_object.
Definition hy_row (p : Z) : bytes := [1; p / 256; p mod 256; 0].
Definition hy_stream (index : bytes) (rows : bytes) : bytes :=
  B "5 0 obj" ++ [10] ++ B "<< /Type /XRef /Size 6 /Root 1 0 R /Index [" ++ index ++ B "] /W [1 2 1] /Length " ++ dec (blen rows) ++ B " >>" ++ [10] ++
  B "stream" ++ [10] ++ rows ++ [10] ++ B "endstream" ++ [10] ++ B "endobj" ++ [10].
Definition hy_table (pos : Z) : bytes :=
  let free := B "0000000000 65535 f " ++ [10] in
  B "xref" ++ [10] ++ B "0 6" ++ [10] ++ free ++ B "0000000009 00000 n " ++ [10] ++ B "0000000058 00000 n " ++ [10] ++ B "0000000117 00000 n " ++ [10] ++ free ++ free ++
  B "trailer" ++ [10] ++ B "<< /Root 1 0 R /Size 6 /XRefStm " ++ dec hy_pos ++ B " >>" ++ [10] ++ B "startxref" ++ [10] ++ dec pos ++ [10] ++ B "%%EOF" ++ [10].
Definition hy_file (stream : bytes) : bytes :=
  firstn 208 blank_file ++ hy_object ++ stream ++ hy_table (hy_pos + blen stream).
(* the stream gives the places of the objects that the table hides *)
Definition hidden_file : bytes := Eval vm_compute in hy_file (hy_stream (B "4 2") (hy_row 208 ++ hy_row hy_pos)).
(* the stream gives the places of all objects *)
Definition repeat_file : bytes := Eval vm_compute in
  hy_file (hy_stream (B "1 5") (hy_row 9 ++ hy_row 58 ++ hy_row 117 ++ hy_row 208 ++ hy_row hy_pos)).
(* its sections as they are read: the table, then the stream *)
Definition repeat_chrono : list (list ient) := Eval vm_compute in
  fst (fst (get_ok ([], [], 0) (@build_xref_sequence store_codec 10 (PvSingle repeat_file)))).
Definition repeat_next : list (Z * Z) := Eval vm_compute in
  snd (fst (get_ok ([], [], 0) (@build_xref_sequence store_codec 10 (PvSingle repeat_file)))).
Definition repeat_index : list (list slot) := Eval vm_compute in get_ok [] (build_index repeat_chrono repeat_next 5).
Definition repeat_doc : doc := Eval vm_compute in get_ok no_doc (@loads store_codec 10 repeat_file).
