(* Properties C97, C98: the description of a document, and hybrid-reference files *)
From Coq Require Import String QArith Qcanon.
From Verif Require Import PyBase Model_Filters Model_Objects Model_Filestruct Model_Text Model_Docstruct Model_Api Model_Graphics Model_Structure.
From Verif Require Import Spec_Objects Spec_Filters Spec_Filestruct Spec_Docstruct Spec_Pages Spec_Calls Spec_Structure.
From Verif Require Import Facts_Base Facts_Index Facts_Doc Facts_Edit Facts_Pages Facts_Checks Facts_Calls Facts_Structure.
From Verif Require Import Cases_Docstruct Cases_Pages Cases_Structure.
Open Scope Z_scope.

(* ---------------- C97 ---------------- *)
(* full statement: structure gives the version, the number of pages, the number of revisions,
   whether the file is encrypted, hybrid and linearized, and the paper of the first page.  What
   it says of hybrid files is what hybrid says (see below), for linearized see C67 *)
Theorem C97_structure_partial : forall {ZL : Zlib} d h F t c cat vs td hy lin x rest m sx sy fuel base,
  coherent d -> headed d h F -> has_tree d t -> (depth t < fuel)%nat -> catalog_at d c cat -> declared h cat vs ->
  dget K_Count (tdict t) = Some (PInt (Z.of_nat (length (leaves t)))) ->
  value d 0 = Ok (PDict td) -> (protected td \/ unprotected td) -> marked d hy -> linearized (PvSingle F) = Ok lin ->
  leaves t = x :: rest -> attribute base x K_MediaBox (Some m) -> sides m sx sy ->
  exists a base' d', structure fuel d base = Ok (a, base', d') /\ same_values d d' /\
    greatest vs (a_version a) /\ a_pages a = PInt (Z.of_nat (length (leaves t))) /\
    a_revisions a = Z.of_nat (length (d_index d)) - 1 /\ (a_encrypted a = true <-> protected td) /\
    a_hybrid a = hy /\ (a_linearized a = true <-> exists l, lin = Some l) /\ paper_text sx sy (a_paper a).
Proof. intros ZL d h F t c cat vs td hy lin x rest m sx sy fuel base. exact (structure_spec d h F t c cat vs td hy lin x rest m sx sy fuel base). Qed.
Print Assumptions C97_structure_partial.
(* a new document *)
Theorem C97_blank_partial : forall {ZL : Zlib} name w h, paper_of name w h ->
  exists d base' d' sizes t, blank name = Ok d /\
    structure 3 d [] = Ok (mk_about (B "1.4") (PInt 1) 1 false false false t, base', d') /\ t = sizes ++ B " (" ++ name ++ B ")" /\ paper_text (qc w) (qc h) t.
Proof.
  intros ZL name w h P. apply of_sizes in P.
  assert (A : Forall (fun x => exists d base' d' sizes t, blank (fst x) = Ok d /\
    structure 3 d [] = Ok (mk_about (B "1.4") (PInt 1) 1 false false false t, base', d') /\ t = sizes ++ B " (" ++ fst x ++ B ")" /\
    paper (PList [PInt 0; PInt 0; PInt (fst (snd x)); PInt (snd (snd x))]) = Ok t) PAPER_SIZES).
  { unfold PAPER_SIZES. repeat apply Forall_cons; try apply Forall_nil; (eexists; eexists; eexists;
      match goal with |- exists _ _, _ /\ _ /\ _ ++ _ ++ fst (?n, _) ++ _ = _ /\ _ => idtac | |- context [blank (fst (?n, (?w0, ?h0)))] =>
        let t := eval vm_compute in (match paper (PList [PInt 0; PInt 0; PInt w0; PInt h0]) with Ok t => t | _ => [] end) in
        exists (firstn (length t - length n - 3) t), t end;
      split; [vm_compute; reflexivity|split; [vm_compute; reflexivity|split; vm_compute; reflexivity]]). }
  rewrite Forall_forall in A. destruct (A _ P) as (d & base' & d' & sizes & t & H1 & H2 & H3 & H4). exists d, base', d', sizes, t. split; [exact H1|]. split; [exact H2|]. split; [exact H3|].
  cbn [fst snd] in H4. destruct (paper_named (PList [PInt 0; PInt 0; PInt w; PInt h]) (qc w) (qc h)) as (t' & E & T).
  { exists (PInt 0), (PInt 0), (PInt w), (PInt h), (qc 0), (qc 0), (qc w), (qc h). do 5 (split; [reflexivity|]). change (qc 0) with (0%Qc). split; ring. }
  rewrite H4 in E. injection E as ->. exact T.
Qed.
Print Assumptions C97_blank_partial.
(* a file whose only section has a table and a stream is not reported *)
Theorem C97_hybrid_refuted : exists d chrono nxt nb s r base' d' a,
  @build_xref_sequence store_codec 10 (PvSingle repeat_file) = Ok (chrono, nxt, nb) /\ In (s :: r) chrono /\ n_stm s = true /\
  @loads store_codec 10 repeat_file = Ok d /\ @structure store_codec 10 d [] = Ok (a, base', d') /\ a_hybrid a = false.
Proof.
  do 9 eexists. split; [vm_compute; reflexivity|]. split; [left; reflexivity|]. split; [reflexivity|]. split; [vm_compute; reflexivity|]. split; [vm_compute; reflexivity|reflexivity].
Qed.
Print Assumptions C97_hybrid_refuted.
(* the sizes in millimetres are truncated, not rounded: A4 paper, 210 mm wide, is said to be 209 mm wide *)
Theorem C97_millimetres_refuted : exists m sx sy t, sides m sx sy /\ paper m = Ok (B "209x297mm" ++ t) /\
  (inject_Z 210 - (1 # 2) < sx * (127 # 360))%Q /\ (sx * (127 # 360) < inject_Z 210 + (1 # 2))%Q.
Proof.
  exists (PList [PInt 0; PInt 0; PInt 595; PInt 842]), (qc 595), (qc 842), (B " or 8.26x11.69in (A4)"). split; [|split; [vm_compute; reflexivity|split; reflexivity]].
  do 8 eexists. do 5 (split; [reflexivity|]). split; apply Qc_is_canon; vm_compute; reflexivity.
Qed.
Print Assumptions C97_millimetres_refuted.
Example C97_case : exists a base' d', @structure store_codec 10 loaded_doc [] = Ok (a, base', d') /\
  @coherent store_codec loaded_doc /\ headed loaded_doc (B "1.4") blank_file /\
  a_version a = B "1.4" /\ a_pages a = PInt 1 /\ a_paper a = B "209x297mm or 8.26x11.69in (A4)" /\
  sides (PList [PInt 0; PInt 0; PInt 595; PInt 842]) (qc 595) (qc 842).
Proof.
  do 3 eexists. split; [vm_compute; reflexivity|]. split; [apply coherentb_ok; vm_compute; reflexivity|]. split.
  - split; [reflexivity|]. split; [repeat constructor; cbn; lia|]. split; [exists (skipn 8 blank_file); reflexivity|]. eexists _, _. split; reflexivity.
  - do 3 (split; [reflexivity|]). do 8 eexists. do 5 (split; [reflexivity|]). split; apply Qc_is_canon; vm_compute; reflexivity.
Qed.

(* ---------------- C98 ---------------- *)
(* full statement: without the hypothesis repeated.  The index of a file is the one of its
   sections, the table and the stream of a hybrid section being combined *)
Theorem C98_hybrid_partial : forall chrono m nxt nb idx, 0 <= nb -> sections (rev chrono) m -> repeated (rev chrono) -> ascending 0 m ->
  Forall (Forall (fun e => n_next e = None)) chrono ->
  Forall (fun s => Forall (fun o => ok_num nb (n_num o)) (tl s)) chrono ->
  build_index chrono nxt nb = Ok idx ->
  length idx = length m /\
  exists raw, length raw = length m /\
    forall k row sec, nth_error idx k = Some row -> nth_error m k = Some sec ->
      length row = Z.to_nat (nb + 2) /\
      (exists t es c, sec = t :: es /\ nth_error row 0 = Some c /\
         completed raw nxt (SDict (with_dver (Some (Z.of_nat k)) (with_over (Some (Z.of_nat k)) t))) c) /\
      (exists rrow, nth_error raw k = Some rrow /\
         forall n, ok_num nb n -> let c := cell_of (history n 0 [] (firstn (S k) m)) in
           pyget rrow n = Ok c /\ exists c', pyget row n = Ok c' /\ completed raw nxt c c').
Proof. exact hybrid_rows. Qed.
Print Assumptions C98_hybrid_partial.
(* the entries of the table are lost when the stream does not repeat them *)
Theorem C98_refuted : exists d chrono nxt nb m e,
  @build_xref_sequence store_codec 10 (PvSingle hidden_file) = Ok (chrono, nxt, nb) /\
  sections (rev chrono) m /\ history 1 0 [] m = [(0, e)] /\ n_pos e = Some (AInt 9) /\
  at_pos hidden_file 9 (B "1 0 obj") /\
  @loads store_codec 10 hidden_file = Ok d /\ @value store_codec d 1 = Exc ETypeError.
Proof.
  do 6 eexists. split; [vm_compute; reflexivity|]. split; [cbn [rev app]; apply Se_pair; [reflexivity|reflexivity|apply Se_nil]|].
  split; [vm_compute; reflexivity|]. split; [reflexivity|]. split; [exists (firstn 9 hidden_file), (skipn 16 hidden_file); split; reflexivity|].
  split; [vm_compute; reflexivity|vm_compute; reflexivity].
Qed.
Print Assumptions C98_refuted.
Example C98_case : exists m,
  @build_xref_sequence store_codec 10 (PvSingle repeat_file) = Ok (repeat_chrono, repeat_next, 5) /\
  sections (rev repeat_chrono) m /\ repeated (rev repeat_chrono) /\ ascending 0 m /\
  Forall (Forall (fun e => n_next e = None)) repeat_chrono /\ Forall (fun s => Forall (fun o => ok_num 5 (n_num o)) (tl s)) repeat_chrono /\
  build_index repeat_chrono repeat_next 5 = Ok repeat_index /\
  @loads store_codec 10 repeat_file = Ok repeat_doc /\ @value store_codec repeat_doc 4 = Ok (PInt 42).
Proof.
  assert (R : repeated (rev repeat_chrono)).
  { unfold repeat_chrono. cbn [rev app]. apply Rp_pair; [reflexivity|reflexivity| |apply Rp_nil]. intros e I N.
    repeat (destruct I as [<-|I]; [cbn [n_num] in N; first [lia|split; reflexivity]|]). contradiction. }
  assert (S : sections (rev repeat_chrono) [with_pos (Some (AInt 481)) (with_stm true (hd (ient0 0 0) (nth 1 repeat_chrono []))) :: combined (tl (nth 0 repeat_chrono [])) (tl (nth 1 repeat_chrono []))]).
  { unfold repeat_chrono at 1. cbn [rev app]. apply Se_pair; [reflexivity|reflexivity|apply Se_nil]. }
  eexists. split; [vm_compute; reflexivity|]. split; [exact S|]. split; [exact R|].
  split; [eexists _, _, _; split; [reflexivity|]; split; [reflexivity|]; split; [lia|exact Logic.I]|].
  split; [repeat constructor|].
  split; [repeat (constructor; [cbn [tl]; repeat (constructor; [unfold ok_num; cbn [n_num]; lia|]); constructor|]); constructor|].
  split; [vm_compute; reflexivity|]. split; vm_compute; reflexivity.
Qed.
