(* C100, C101 *)
From Coq Require Import String.
From Verif Require Import PyBase Model_Filters Model_Objects Model_Docstruct Model_Filestruct Model_Api Spec_Filters Spec_Filestruct Spec_Map Facts_Map Cases_Packed.
Open Scope Z_scope.

(* C100: every element of the object map comes from one region, in order: a table is given
   with the place of each entry (its subsection, its rank in it), an xref stream is followed
   by its lines, each with its section and rank, an object stream by its objects, numbered *)
Theorem C100_map_partial {ZL : Zlib} : forall p m, file_object_map p = Ok m -> exists lss, m = concat lss /\ Forall2 mapped (regions m) lss.
Proof. exact object_map_items. Qed.
Print Assumptions C100_map_partial.
Definition gap_text (tr : bytes) : bytes := Eval cbn [app] in
  B "%PDF-1.4" ++ [10] ++ B "1 0 obj <</Type/Catalog/Pages 3 0 R>> endobj" ++ [10] ++ B "3 0 obj <</Type/Pages/Kids[]/Count 0>> endobj" ++ [10]
  ++ B "xref" ++ [10] ++ B "0 2" ++ [10] ++ B "0000000000 65535 f " ++ [10] ++ B "0000000009 00000 n " ++ [10]
  ++ B "3 1" ++ [10] ++ B "0000000054 00000 n " ++ [10] ++ tr ++ [10] ++ B "startxref" ++ [10] ++ B "100" ++ [10] ++ B "%%EOF" ++ [10].
Definition gap_file : bytes := Eval vm_compute in gap_text (B "trailer" ++ [10] ++ B "<</Root 1 0 R/Size 4>>").
Example C100_case : exists m x r, @file_object_map store_codec (PvSingle gap_file) = Ok m /\ nth_error m 6 = Some (ItReg (RXref x) [None; Some (0, 0); Some (0, 1); None; Some (1, 0)]) /\
  xt_lines x = [XSub 0 2; XEnt 0 0 65535 [102]; XEnt 9 1 0 [110]; XSub 3 1; XEnt 54 3 0 [110]] /\ xt_trailer x = PDict [(B "/Size", PInt 4); (B "/Root", PRef 0 1)] /\
  nth_error m 8 = Some (ItReg (RStartxref 204 217 (B "100")) r).
Proof. do 3 eexists. split; [vm_compute; reflexivity|]. split; [vm_compute; reflexivity|]. repeat split; vm_compute; reflexivity. Qed.
(* when the trailer dictionary follows its keyword on the same line, the map gives the
   table the word startxref as trailer, though the file loads *)
Definition inline_file : bytes := Eval vm_compute in gap_text (B "trailer <</Root 1 0 R/Size 4>>").
Theorem C100_trailer_refuted : exists f d m x rp, @loads store_codec 10 f = Ok d /\ (exists t d', @trailer store_codec d = Ok (PDict t, d') /\ dget K_Root t = Some (PRef 0 1)) /\
  @file_object_map store_codec (PvSingle f) = Ok m /\ In (ItReg (RXref x) rp) m /\ xt_trailer x = PStr (B "startxref") /\
  (forall b e v r, ~ In (ItReg (RStartxref b e v) r) m).
Proof.
  exists inline_file. do 4 eexists. split; [vm_compute; reflexivity|]. split; [do 2 eexists; split; [vm_compute; reflexivity|vm_compute; reflexivity]|]. split; [vm_compute; reflexivity|]. split; [do 6 right; left; reflexivity|]. split; [vm_compute; reflexivity|].
  intros b e v r I. cbn [In] in I. decompose [or] I; try discriminate; contradiction.
Qed.
Print Assumptions C100_trailer_refuted.

(* C101: the objects held by object streams *)
Theorem C101_envelopes_partial : forall d row, last_row d = Ok row -> (forall s, In s row -> exists e, s = SDict e) ->
  exists m, envelopes d = Ok m /\ NoDup (map fst m) /\
    (forall z l, In (z, l) m -> l <> [] /\ ascending_list l /\ forall i, In i l <-> member row z i) /\
    (forall z i, member row z i -> exists l, In (z, l) m).
Proof. exact envelopes_ok. Qed.
Print Assumptions C101_envelopes_partial.
Example C101_case : exists row, last_row reloaded_doc = Ok row /\ (forall s, In s row -> exists e, s = SDict e) /\ length row = 14%nat /\
  envelopes reloaded_doc = Ok [(12, [1; 2; 3; 4; 5; 6; 7; 8; 9])].
Proof.
  eexists. split; [vm_compute; reflexivity|]. split; [|split; vm_compute; reflexivity].
  intros s I. cbn [In] in I. decompose [or] I; subst; try contradiction; eexists; reflexivity.
Qed.
(* a document whose numbers are not all used makes it fail *)
Theorem C101_gap_refuted : exists f d, @loads store_codec 10 f = Ok d /\ envelopes d = Exc EAttributeError.
Proof. exists gap_file. eexists. split; vm_compute; reflexivity. Qed.
Print Assumptions C101_gap_refuted.
