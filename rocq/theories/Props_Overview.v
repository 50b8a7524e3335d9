(* Property C112: what the command overview prints *)
From Coq Require Import String QArith Qcanon.
From Verif Require Import PyBase Model_Filters Model_Objects Model_Filestruct Model_Text Model_Docstruct Model_Api Model_Graphics Model_Structure Model_Overview.
From Verif Require Import Spec_Objects Spec_Filters Spec_Filestruct Spec_Docstruct Spec_Pages Spec_Calls Spec_Structure Spec_Overview.
From Verif Require Import Facts_Base Facts_Index Facts_Doc Facts_Edit Facts_Pages Facts_Checks Facts_Calls Facts_Structure Facts_Overview.
From Verif Require Import Cases_Docstruct Cases_Calls Cases_Structure.
Open Scope Z_scope.

(* full statement: overview prints what structure and metadata say, hiding the texts of
   protected documents.  What it says of hybrid files is what hybrid says (see C97 and
   C112_hybrid_refuted), for linearized see C67.  How Python formats the number of pages is a parameter *)
Theorem C112_overview_partial : forall {ZL : Zlib} show d h F t c cat vs td hy lin x rest m sx sy fuel base i rs,
  coherent d -> headed d h F -> has_tree d t -> (depth t < fuel)%nat -> catalog_at d c cat -> declared h cat vs ->
  dget K_Count (tdict t) = Some (PInt (Z.of_nat (length (leaves t)))) ->
  value d 0 = Ok (PDict td) -> (protected td \/ unprotected td) -> marked d hy -> linearized (PvSingle F) = Ok lin ->
  leaves t = x :: rest -> attribute base x K_MediaBox (Some m) -> sides m sx sy ->
  info_at d i -> Forall2 (info_text d i) info_keys rs ->
  exists out base' d' v e hyb l k vals, overview show fuel d base = Ok (out, base', d') /\ same_values d d' /\
    greatest vs v /\ yes_no (protected td) e /\ yes_no (hy = true) hyb /\ yes_no (exists p, lin = Some p) l /\ paper_text sx sy k /\ Forall2 (entry_value (protected td)) rs vals /\
    out = B "# Structure" ++ [10] ++
      lines_text [(B "Version", v); (B "Pages", show (PInt (Z.of_nat (length (leaves t))))); (B "Revisions", dec (Z.of_nat (length (d_index d)) - 1));
                  (B "Encrypted", e); (B "Hybrid", hyb); (B "Linearized", l); (B "Paper of 1st page", k)] ++
      [10] ++ B "# Metadata" ++ [10] ++ lines_text (combine info_keys vals).
Proof. intros ZL. exact overview_spec. Qed.
Print Assumptions C112_overview_partial.

#[local] Existing Instance store_codec.
(* a protected file with a title *)
Definition secret_file : bytes := Eval vm_compute in get_ok []
  (let d := blank_initial 595 842 in
   let d0 := mk_doc (d_index d) (PDict [(K_Root, PRef 0 1); (K_Info, PRef 0 4); (K_Encrypt, PRef 0 5)] :: tl (d_cache d)) (d_data d) in
   let* d1 := add2 d0 (PDict [(B "/Title", PBytes (B "(Secret)")); (B "/Subject", PBytes (B "()"))]) in
   let* d2 := add2 d1 (PDict [(K_Filter, PStr (B "/Standard"))]) in
   let* (b, _) := writefile d2 in Ok b).
Definition secret_doc : doc := Eval vm_compute in get_ok no_doc (loads 10 secret_file).
Definition secret_tree : ptree := Eval vm_compute in match plant 9 secret_doc with Some t => t | None => Leaf PNone [] end.
Definition plain_number (o : obj) : bytes := match o with PInt n => dec n | _ => [] end.
Example C112_case : exists c cat td x i,
  coherent secret_doc /\ headed secret_doc (B "1.4") secret_file /\ has_tree secret_doc secret_tree /\ (depth secret_tree < 3)%nat /\ catalog_at secret_doc c cat /\ declared (B "1.4") cat [B "1.4"] /\
  dget K_Count (tdict secret_tree) = Some (PInt (Z.of_nat (length (leaves secret_tree)))) /\ value secret_doc 0 = Ok (PDict td) /\ protected td /\ marked secret_doc false /\
  linearized (PvSingle secret_file) = Ok None /\ leaves secret_tree = [x] /\ attribute [] x K_MediaBox (Some (PList [PInt 0; PInt 0; PInt 595; PInt 842])) /\
  sides (PList [PInt 0; PInt 0; PInt 595; PInt 842]) (qc 595) (qc 842) /\
  info_at secret_doc i /\ Forall2 (info_text secret_doc i) info_keys [Some (B "Secret"); None; None; None; None; None; None; None] /\
  exists base' d', overview plain_number 3 secret_doc [] = Ok (B "# Structure
Version: 1.4
Pages: 1
Revisions: 1
Encrypted: True
Hybrid: False
Linearized: False
Paper of 1st page: 209x297mm or 8.26x11.69in (A4)

# Metadata
Title: #Encrypted#
Author: None
Subject: None
Keywords: None
Creator: None
Producer: None
CreationDate: None
ModDate: None
", base', d').
Proof.
  eexists 1, _, _, _, _. split; [apply coherentb_ok; vm_compute; reflexivity|]. split.
  { split; [reflexivity|]. split; [repeat constructor; cbn; lia|]. split; [exists (skipn 8 secret_file); reflexivity|]. eexists _, _. split; reflexivity. }
  split; [apply (plant_ok 9); vm_compute; reflexivity|]. split; [vm_compute; lia|]. split.
  { eexists _, _. split; [vm_compute; reflexivity|]. split; [vm_compute; reflexivity|]. exists 0. split; [reflexivity|]. split; [reflexivity|vm_compute; reflexivity]. }
  split; [left; split; [vm_compute; reflexivity|reflexivity]|]. split; [vm_compute; reflexivity|]. split; [vm_compute; reflexivity|].
  split; [left; exists 0, 5; split; [vm_compute; reflexivity|lia]|].
  split; [match eval vm_compute in (d_index secret_doc) with ?r0 :: (SDict ?e :: ?r1) :: ?r2 => apply (mk_second secret_doc r0 (SDict e :: r1) r2 e) end; [vm_compute; reflexivity|split; [lia|reflexivity]]|].
  split; [vm_compute; reflexivity|]. split; [vm_compute; reflexivity|]. split; [apply At_own; vm_compute; reflexivity|].
  split; [do 8 eexists; do 5 (split; [reflexivity|]); split; apply Qc_is_canon; vm_compute; reflexivity|].
  split. { eexists. split; [vm_compute; reflexivity|]. right. exists (PRef 0 4), 4. split; [vm_compute; reflexivity|]. exists 0. split; [reflexivity|]. split; [reflexivity|]. vm_compute. reflexivity. }
  split.
  - unfold info_keys. constructor; [|constructor; [|constructor]].
    + eapply It_text; [vm_compute; reflexivity|apply De_val; discriminate|vm_compute; reflexivity|discriminate].
    + apply It_none. vm_compute. reflexivity.
    + eapply It_empty; [vm_compute; reflexivity|apply De_val; discriminate|vm_compute; reflexivity].
    + repeat (constructor; [apply It_none; vm_compute; reflexivity|]). constructor.
  - eexists _, _. vm_compute. reflexivity.
Qed.
(* the hybrid-reference file of C98: its section names an xref stream, and overview prints that it is not hybrid *)
Theorem C112_hybrid_refuted : exists d chrono nxt nb s r pre post base' d',
  build_xref_sequence 10 (PvSingle repeat_file) = Ok (chrono, nxt, nb) /\ In (s :: r) chrono /\ n_stm s = true /\
  loads 10 repeat_file = Ok d /\ overview plain_number 10 d [] = Ok (pre ++ field (B "Hybrid") (B "False") ++ post, base', d').
Proof.
  eexists _, _, _, _, _, _, (B "# Structure
Version: 1.4
Pages: 1
Revisions: 1
Encrypted: False
"), _, _, _. split; [vm_compute; reflexivity|]. split; [left; reflexivity|]. split; [reflexivity|]. split; [vm_compute; reflexivity|]. vm_compute. reflexivity.
Qed.
Print Assumptions C112_hybrid_refuted.
