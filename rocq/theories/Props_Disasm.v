(* Property C92: the listing of a file *)
From Coq Require Import String.
From Verif Require Import PyBase Model_Filters Model_Objects Model_Filestruct Model_Text Model_Docstruct Model_Api Model_Disasm.
From Verif Require Import Spec_Filters Spec_Filestruct Spec_Disasm Facts_Disasm Cases_Docstruct Cases_Calls.
Open Scope Z_scope.

(* full statement: also the marks of embedded objects and of xref entries are right *)
Theorem C92_listing_partial : forall {ZL : Zlib} show fuel f out, lines_end f -> dump_disasm show fuel (PvSingle f) = Ok out ->
  exists m seq nxt nb wrong lss ws ss j, file_object_map (PvSingle f) = Ok m /\ build_xref_sequence fuel (PvSingle f) = Ok (seq, nxt, nb) /\ check_index_targets m seq = Ok wrong /\
    Forall2 (listed_as show f seq wrong) m lss /\
    covering 0 (concat lss) (Z.of_nat j) /\ (j = length f \/ (j < length f)%nat /\ parse_region f j = Ok None) /\
    out = flat_map (fun s => s ++ [10]) ss /\ Forall2 (fun l s => line_shows column_kinds ws (columns_of l) s) (concat lss) ss /\
    Forall (fun s => length s = list_sum ws + 16)%nat ss.
Proof. intros ZL show. exact (disasm_ok show). Qed.
Print Assumptions C92_listing_partial.
#[local] Existing Instance store_codec.
Definition plain_show (o : obj) : bytes := match serialize o with Ok s => s | _ => [] end.
Definition objstm_file : bytes := Eval vm_compute in get_ok []
  (let* d1 := add2 (blank_initial 100 100) (PStream [(K_Type, PStr V_ObjStm); (K_N, PInt 2); (K_First, PInt 8)] (Some (B "7 0 1 3 12 (a)")) (Some (B "7 0 1 3 12 (a)"))) in
   let* (b, _) := writefile d1 in Ok b).
Definition last_lines (n : nat) (out : bytes) : bytes := skipn (length out - n) out.
Example C92_case : lines_end objstm_file /\ exists out, dump_disasm plain_show 10 (PvSingle objstm_file) = Ok out /\
  firstn 43 out = B "+ 000 [8  ]                comment         " /\ length out = (23 * 85)%nat.
Proof.
  split.
  - exists (removelast objstm_file), 10. split; [vm_compute; reflexivity|left; reflexivity].
  - eexists. split; [vm_compute; reflexivity|]. split; vm_compute; reflexivity.
Qed.
(* an embedded object that no xref section mentions is shown as if one did: the numbers of
   objects and the places in object streams are confused *)
Theorem C92_embedded_refuted : exists file m seq nxt nb ls bo e l, file_object_map (PvSingle file) = Ok m /\ build_xref_sequence 10 (PvSingle file) = Ok (seq, nxt, nb) /\
  In (ItEmb bo 0 e) m /\ e_num e = PInt 7 /\ (forall s x, In s seq -> In x s -> n_env x = None) /\
  disasm_lines plain_show 10 (PvSingle file) = Ok ls /\ In l ls /\ l_iref l = B "7," /\ l_seq l = Some 0 /\ l_st l = B "@-".
Proof.
  exists objstm_file. do 8 eexists. split; [vm_compute; reflexivity|]. split; [vm_compute; reflexivity|]. split; [do 9 right; left; reflexivity|]. split; [reflexivity|]. split.
  - intros s x [<-|[]] I. cbn [In] in I. decompose [or] I; subst; try reflexivity; contradiction.
  - split; [vm_compute; reflexivity|]. split; [do 9 right; left; reflexivity|]. split; [reflexivity|]. split; reflexivity.
Qed.
Print Assumptions C92_embedded_refuted.
(* the entry of an object that is in its place is marked when another entry has the same address *)
Definition moved_file : bytes := Eval vm_compute in
  let b := get_ok [] (let* (b, _) := writefile (blank_initial 100 100) in Ok b) in
  let p := match find (B "0000000117") b 0 with Some p => p | None => O end in firstn p b ++ B "0000000058" ++ skipn (p + 10) b.
Theorem C92_marks_refuted : exists file m seq nxt nb ls o rp e l, file_object_map (PvSingle file) = Ok m /\ build_xref_sequence 10 (PvSingle file) = Ok (seq, nxt, nb) /\
  In (ItReg (RInd o) rp) m /\ i_num o = 2 /\ i_beg o = Some 58%nat /\ In e (concat seq) /\ entry_at e (KDir 2 (i_gen o) (AInt 58)) /\
  disasm_lines plain_show 10 (PvSingle file) = Ok ls /\ In l ls /\ l_iref l = B "2,0" /\ l_addr l = Some 58 /\ l_st l = B "-?".
Proof.
  exists moved_file. do 9 eexists. split; [vm_compute; reflexivity|]. split; [vm_compute; reflexivity|]. split; [do 4 right; left; reflexivity|]. split; [reflexivity|]. split; [reflexivity|].
  split; [cbn [concat app]; do 2 right; left; reflexivity|]. split; [apply (ea_dir (with_pos (Some (AInt 58)) (ient0 2 0))); reflexivity|]. split; [vm_compute; reflexivity|]. split; [do 11 right; left; reflexivity|]. split; [reflexivity|]. split; reflexivity.
Qed.
Print Assumptions C92_marks_refuted.
