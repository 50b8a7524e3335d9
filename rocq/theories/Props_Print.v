(* Properties of the iteration over a document and of the texts that describe it *)
From Coq Require Import String Permutation.
From Verif Require Import PyBase Model_Filters Model_Objects Model_Filestruct Model_Text Model_Docstruct Model_Api Model_Print.
From Verif Require Import Spec_Filters Spec_Objects Spec_Filestruct Spec_Docstruct Spec_Pages Spec_Print.
From Verif Require Import Facts_Base Facts_Obj Facts_Revision Facts_Doc Facts_Edit Facts_Pages Facts_Remove Facts_Checks Facts_Print Cases_Docstruct Cases_Pages Cases_Foreign Props_Pages.
From Coq Require Import ZifyBool ZifyNat.

(* ---- C107 ---- *)
Theorem C107_iteration : forall {ZL : Zlib} (ord : list ref -> list ref) d t fuel base it l,
  (forall s, Permutation (ord s) s) -> editable d -> well_formed d t -> tidy d t -> (depth t < fuel)%nat ->
  doc_iter d = Ok it -> yields ord fuel base it l -> Forall2 (only_page d t) (seq 0 (length (leaves t))) l /\ same_values d (it_doc it).
Proof.
  intros ZL ord d t fuel base it l O E W T D I Y. unfold doc_iter in I. destruct (number_spec d t (editable_coherent d E) W) as (d1 & EN & R). rewrite EN in I. cbn [bind] in I. injection I as <-. cbn [it_doc].
  split; [|apply R]. pose proof (iter_yields ord O fuel d t E W T D l base _ Y R eq_refl 0%nat eq_refl ltac:(lia)) as F. rewrite Nat.sub_0_r in F. exact F.
Qed.
Print Assumptions C107_iteration.
Theorem C107_iteration_ends : forall {ZL : Zlib} (ord : list ref -> list ref) d t,
  (forall s, Permutation (ord s) s) -> editable d -> well_formed d t -> tidy d t -> sane d t ->
  exists fuel0, forall fuel base, (fuel0 <= fuel)%nat -> exists it l, doc_iter d = Ok it /\ yields ord fuel base it l.
Proof.
  intros ZL ord d t O E W T SA. destruct (keep_total_ro ord O d t E W T SA) as (f0 & H). exists f0. intros fuel base LE.
  destruct (number_spec d t (editable_coherent d E) W) as (d1 & EN & R). exists (mk_iterator d1 0 (Z.of_nat (length (leaves t)))).
  destruct (iter_total ord f0 fuel d t E W T) with (n := length (leaves t)) (c := 0%nat) (leak := base) (it := mk_iterator d1 0 (Z.of_nat (length (leaves t)))) as (l & Y); auto.
  exists l. split; auto. unfold doc_iter. rewrite EN. reflexivity.
Qed.
Print Assumptions C107_iteration_ends.
(* the document with four pages of C39 *)
Example C107_case : editable paged_doc /\ @well_formed store_codec paged_doc paged_tree /\ @tidy store_codec paged_doc paged_tree /\ @sane store_codec paged_doc paged_tree /\
  exists it d1 d2 d3 d4, @doc_iter store_codec paged_doc = Ok it /\ @yields store_codec (@rev _) 30 [] it [d1; d2; d3; d4] /\
  map (fun d => match @plant store_codec 9 d with Some t => map leaf_num (leaves t) | None => [] end) [d1; d2; d3; d4] = [[3]; [5]; [6]; [8]].
Proof.
  destruct paged_case as (E & W & T & SA & _). do 4 (split; [assumption|]). do 5 eexists. split; [vm_compute; reflexivity|]. split.
  - do 4 (eapply Yi_next; [vm_compute; reflexivity|]). eapply Yi_stop. vm_compute. reflexivity.
  - vm_compute. reflexivity.
Qed.

(* ---- C108 ---- *)
Theorem C108_marks : forall d l previous current, d_index d = l ++ [previous; current] ->
  Spec_Docstruct.tidy current -> Spec_Docstruct.tidy previous -> (exists s0, cell current 0 s0 /\ s0 <> SNone) ->
  exists chg, lists_differences previous current chg /\
    doc_repr d = Ok (B "<PDF Doc in revision " ++ dec (Z.of_nat (length l) + 1) ++ B " with " ++ dec (Z.of_nat (length chg)) ++ B " modified object(s)>") /\
    exists marks rows, pprint_cache d = Ok (B "      0123456789" ++ [10] ++ rows ++ [10]) /\ ten_rows 0 marks rows /\
      Forall2 (fun io c => cell_mark chg (fst io) (snd io) c) (combine (zseq 0 (length (d_cache d))) (d_cache d)) marks.
Proof.
  intros d l previous current EI TC TP H0. destruct (changes_spec d l previous current EI TC TP H0) as (chg & EC & LD). exists chg. split; auto. split.
  - unfold doc_repr. rewrite EC, EI, app_length. cbn [bind length]. do 2 f_equal. f_equal. f_equal. lia.
  - destruct (marks_lines chg (Z.of_nat (length (d_cache d))) (d_cache d) 0 0 []) as (marks & t & E & F & R); cbn [length]; try lia; auto.
    exists marks, t. split; [|auto]. unfold pprint_cache. rewrite EC. cbn [bind]. rewrite E. reflexivity.
Qed.
Print Assumptions C108_marks.
(* an object is deleted, one is added, and nothing else was read *)
Example C108_case : exists d1 d2 r l previous current, @loads store_codec 10 blank_file = Ok loaded_doc /\ update_object loaded_doc 3 PNone = Ok d1 /\ add_object d1 (PInt 7) = Ok (d2, r) /\ d_index d2 = l ++ [previous; current] /\
  Spec_Docstruct.tidy current /\ Spec_Docstruct.tidy previous /\ (exists s0, cell current 0 s0 /\ s0 <> SNone) /\
  doc_repr d2 = Ok (B "<PDF Doc in revision 1 with 2 modified object(s)>") /\ pprint_cache d2 = Ok (B "      0123456789" ++ [10] ++ B "   0_ x--da" ++ [10; 10]).
Proof.
  do 3 eexists. exists []. do 2 eexists. split; [vm_compute; reflexivity|]. split; [vm_compute; reflexivity|]. split; [vm_compute; reflexivity|]. split; [vm_compute; reflexivity|].
  split; [|split; [|split; [|split; vm_compute; reflexivity]]].
  1, 2: intros n s _ [_ C] l E; apply nth_error_In in C; subst s; repeat (destruct C as [C|C]; [discriminate C|]); destruct C.
  eexists. split; [split; [lia|reflexivity]|discriminate].
Qed.

(* ---- C109 ---- *)
(* show: the text of a Python value *)
Theorem C109_hierarchy : forall {ZL : Zlib} (show : obj -> bytes) d t fuel, coherent d -> well_formed d t -> (depth t < fuel)%nat ->
  exists d1, pprint_page_hierarchy show fuel d = Ok (B "Page count = " ++ show (PInt (Z.of_nat (length (leaves t)))) ++ [10] ++ tree_text show 1 0 t ++ [10], d1) /\ same_values d d1.
Proof. intros ZL show d t fuel C W D. destruct (hierarchy_spec show fuel d t C W D) as (d1 & E & R). exists d1. split; [exact E|apply R]. Qed.
Print Assumptions C109_hierarchy.
Definition plain_show (o : obj) : bytes := match o with PRef 0 n => dec n ++ B "j" | PInt n => dec n | PNone => B "None" | _ => B "?" end.
(* the document of C39, with contents for a page *)
Definition shown_page : dict := Eval vm_compute in match @value store_codec paged_doc 6 with Ok (PDict p) => dset K_Contents (PRef 0 10) p | _ => [] end.
Definition shown_doc : doc := Eval vm_compute in get_ok no_doc (update_object paged_doc 6 (PDict shown_page)).
Definition shown_tree : ptree := Eval vm_compute in match @plant store_codec 9 shown_doc with Some t => t | None => Leaf PNone [] end.
Example C109_case : @coherent store_codec shown_doc /\ @well_formed store_codec shown_doc shown_tree /\ (depth shown_tree < 9)%nat /\
  exists d1, @pprint_page_hierarchy store_codec plain_show 9 shown_doc = Ok (B "Page count = 4" ++ [10] ++
    B "     /Pages node at 2j, kids count = 3:" ++ [10] ++
    B "         /Page [0] at 3j with content(s) at None" ++ [10] ++
    B "         /Pages node at 4j, kids count = 2:" ++ [10] ++
    B "             /Page [1] at 5j with content(s) at None" ++ [10] ++
    B "             /Page [2] at 6j with content(s) at 10j" ++ [10] ++
    B "         /Pages node at 7j, kids count = 1:" ++ [10] ++
    B "             /Page [3] at 8j with content(s) at None" ++ [10; 10], d1).
Proof.
  split; [apply editable_coherent, editableb_ok; vm_compute; reflexivity|]. split; [apply (wellb_ok 9); vm_compute; reflexivity|]. split; [vm_compute; lia|]. eexists. vm_compute. reflexivity.
Qed.

(* ---- C110 ---- *)
(* full statement: column i shows the kind and the size of the data of revision i, the bytes it
   adds and its cut.  The cut is the one of another revision (C110_refuted), and a document that
   was not read from a file makes it fail (C110_blank_refuted). *)
Theorem C110_history_partial : forall d, Forall (fun x => exists p n, dt_fdata x = Some p /\ data_size p n) (d_data d) -> exists hs,
  pprint_data_history d = Ok (wide (B "data_f()") ++ bars (map (fun h => fst (fst (fst h))) hs) ++ wide (B "data_sz") ++ bars (map (fun h => snd (fst (fst h))) hs) ++
    wide (B "add_data") ++ bars (map (fun h => snd (fst h)) hs) ++ wide (B "eof_cut") ++ bars (map snd hs)) /\
  Forall2 (fun i h => exists x y, nth_error (d_data d) i = Some x /\ nth_error (d_data d) ((length (d_data d) - i) mod length (d_data d)) = Some y /\ shown_datum x y h) (seq 0 (length (d_data d))) hs.
Proof. exact history_spec. Qed.
Print Assumptions C110_history_partial.
Theorem C110_refuted : exists F d a, @loads store_codec 4 F = Ok d /\ map dt_cut (d_data d) = [Some 442; Some 644; Some 915; None] /\
  pprint_data_history d = Ok (a ++ wide (B "eof_cut") ++ bars [dec 442; B "None"; dec 915; dec 644]).
Proof.
  destruct (C110_history_partial foreign_again) as (hs & E & _).
  - repeat constructor; eexists _, _; (split; [reflexivity|constructor]).
  - exists foreign_out, foreign_again. eexists. split; [vm_compute; reflexivity|]. split; [vm_compute; reflexivity|].
    assert (Q : pprint_data_history foreign_again = Ok ((wide (B "data_f()") ++ bars (repeat (B "single") 4) ++ wide (B "data_sz") ++ bars (repeat (dec 915) 4) ++ wide (B "add_data") ++ bars (repeat (B "None") 4)) ++
      wide (B "eof_cut") ++ bars [dec 442; B "None"; dec 915; dec 644])) by (vm_compute; reflexivity). exact Q.
Qed.
Print Assumptions C110_refuted.
Theorem C110_blank_refuted : exists d, @blank store_codec (B "A4") = Ok d /\ pprint_data_history d = Exc ETypeError.
Proof. exists blank_doc. split; vm_compute; reflexivity. Qed.
Print Assumptions C110_blank_refuted.
Example C110_case : Forall (fun x => exists p n, dt_fdata x = Some p /\ data_size p n) (d_data foreign_saved) /\
  exists a, pprint_data_history foreign_saved = Ok (a ++ wide (B "add_data") ++ bars [B "None"; B "None"; dec 272; B "None"] ++ wide (B "eof_cut") ++ bars [dec 442; B "None"; B "None"; dec 643]).
Proof.
  split; [repeat constructor; eexists _, _; (split; [reflexivity|constructor])|].
  exists (wide (B "data_f()") ++ bars [B "single"; B "single"; B "composite"; B "composite"] ++ wide (B "data_sz") ++ bars [dec 643; dec 643; dec 915; dec 915]). vm_compute. reflexivity.
Qed.
