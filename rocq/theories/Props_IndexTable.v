(* C113; the object streams of C101 *)
From Coq Require Import String.
From Verif Require Import PyBase Model_Filters Model_Objects Model_Filestruct Model_Text Model_Docstruct Model_Api Model_Print Model_IndexTable.
From Verif Require Import Spec_Filters Spec_IndexTable Facts_IndexTable Cases_Docstruct Cases_Packed.
Open Scope Z_scope.

(* C113: the table of the index: a line for each object of the last revision, a cell for each
   revision, then the lines of the trailer.  show: the text of a position. *)
Theorem C113_index : forall (show : apos -> bytes) compact d last, printable d last -> exists c0 m ws l1 l2 l3 l4 l5,
  pprint_index show compact d = Ok (numbered_lines compact ws 1 m ++ [10] ++ named_line compact ws (B "0 (trailer)") c0 ++
    named_line compact ws (B "abs_pos") (map (fun t => t ++ [32]) l1) ++ named_line compact ws (B "startxref_pos") (map (fun t => t ++ [32]) l2) ++
    named_line compact ws (B "xref_table_pos") (map (fun t => t ++ [32]) l3) ++ named_line compact ws (B "xref_stream_pos") (map (fun t => t ++ [32]) l4) ++
    named_line compact ws (B "xref_stream_num") (map (fun t => t ++ [32]) l5)) /\
  length (c0 :: m) = length last /\
  (forall i cs, nth_error (c0 :: m) i = Some cs -> cells_shown show i [] (d_index d) cs) /\ fitted (c0 :: m) ws /\
  Forall2 (first_shown (fun e => place_shown show (n_pos e))) (d_index d) l1 /\ Forall2 (first_shown (fun e => dashed (n_sx e))) (d_index d) l2 /\
  Forall2 (first_shown (fun e => dashed (n_xt e))) (d_index d) l3 /\ Forall2 (first_shown (fun e => dashed (n_xs e))) (d_index d) l4 /\
  Forall2 (first_shown (fun e => dashed (n_xsn e))) (d_index d) l5.
Proof. exact index_printed. Qed.
Print Assumptions C113_index.
(* the bars of two lines of objects are one below the other *)
Theorem C113_aligned : forall m ws cs cs', fitted m ws -> In cs m -> In cs' m -> length (columns ws cs) = length (columns ws cs').
Proof. intros m ws cs cs' F I J. rewrite (columns_length m ws F cs I), (columns_length m ws F cs' J). reflexivity. Qed.
Print Assumptions C113_aligned.
(* an object is deleted and another one is added to a loaded document; positions are integers *)
Definition show_int (p : apos) : bytes := match p with AInt n => dec n | _ => B "?" end.
Example C113_case : exists d1 d2 r last, @loads store_codec 10 blank_file = Ok loaded_doc /\ update_object loaded_doc 3 PNone = Ok d1 /\ add_object d1 (PInt 7) = Ok (d2, r) /\
  printable d2 last /\
  pprint_index show_int false d2 = Ok (B "1                | 0/0/0 9   | idem       " ++ [10] ++ B "2                | 0/0/0 58  | idem       " ++ [10] ++
    B "3                | 0/0/0 117 | Deleted  - " ++ [10] ++ B "4                | -         | 0/0/1 -    " ++ [10; 10] ++
    B "0 (trailer)      | 0/0/0 293 | 0/1/1 -    " ++ [10] ++ B "abs_pos          | 293       | -          " ++ [10] ++ B "startxref_pos    | 327       | -          " ++ [10] ++
    B "xref_table_pos   | 208       | -          " ++ [10] ++ B "xref_stream_pos  | -         | -          " ++ [10] ++ B "xref_stream_num  | -         | -          " ++ [10]).
Proof.
  eexists. eexists. eexists. eexists. split; [vm_compute; reflexivity|]. split; [vm_compute; reflexivity|]. split; [vm_compute; reflexivity|]. 
  split; [eapply printableb_ok; [vm_compute; reflexivity|apply (app_removelast_last []); discriminate]|vm_compute; reflexivity].
Qed.

(* C101: envelope_objects gives the numbers of the object streams that hold an object *)
Theorem C101_envelope_objects : forall d row, last_row d = Ok row -> (forall s, In s row -> exists e, s = SDict e) ->
  exists l, envelope_objects d = Ok l /\ forall z, In z l <-> z <> 0 /\ exists e, In (SDict e) row /\ n_env e = Some z.
Proof. exact envelope_objects_ok. Qed.
Print Assumptions C101_envelope_objects.
Example C101_envelope_case : exists row, last_row reloaded_doc = Ok row /\ (forall s, In s row -> exists e, s = SDict e) /\
  envelope_objects reloaded_doc = Ok (repeat 12 9).
Proof.
  eexists. split; [vm_compute; reflexivity|]. split; [|vm_compute; reflexivity].
  intros s I. cbn [In] in I. decompose [or] I; subst; try contradiction; eexists; reflexivity.
Qed.
