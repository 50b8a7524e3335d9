(* Properties C90 and C91: the fonts of a document, the text of its pages *)
From Coq Require Import String QArith Qcanon Permutation.
From Verif Require Import PyBase Model_Filters Model_Objects Model_Filestruct Model_Text Model_Docstruct Model_Api Model_Graphics Model_Layout Model_Fonts.
From Verif Require Import Spec_Filters Spec_Objects Spec_Filestruct Spec_Docstruct Spec_Pages Spec_Text Spec_Layout Spec_Calls Spec_Fonts.
From Verif Require Import Facts_Base Facts_Doc Facts_Edit Facts_Pages Facts_Checks Facts_Fonts Cases_Docstruct Cases_Fonts.
Open Scope Z_scope.

#[local] Existing Instance store_codec.
(* ---- C90 ---- *)
(* full statement: for every document.  It fails for pages that inherit their resources, for
   fonts given in other ways, and for fonts without a name; a font that has two names on a
   page is counted twice there *)
Theorem C90_fonts_partial : forall {ZL : Zlib} d t fuel base ls,
  coherent d -> has_tree d t -> (depth t < fuel)%nat -> dget K_Count (tdict t) = Some (PInt (Z.of_nat (length (leaves t)))) ->
  Forall2 (fun x l => page_font_dict d (leaf_page x) l) (leaves t) ls ->
  Forall (Forall (fun kv => exists f, usable d (snd kv) f)) ls -> Forall (Forall (fun kv => exists g n, snd kv = PRef g n)) ls ->
  exists rows base' d', fonts fuel d base = Ok (rows, base', d') /\ same_values d d' /\ font_table d ls rows.
Proof. intros ZL d t fuel base ls. exact (fonts_table_spec t fuel d base ls). Qed.
Print Assumptions C90_fonts_partial.
(* the table that is printed *)
Theorem C90_table : forall rows, exists head ss, fonts_table rows = Ok (head ++ concat ss) /\
  printed_line [B "Name"; B "Type"; B "Encoding"; B "Obj"; B "Pages"] [30; 10; 16; 8; 6]%nat head /\
  Forall2 (fun r s => printed_line [fr_name r; fr_type r; fr_enc r; dec (snd (fr_key r)) ++ B "," ++ dec (fst (fr_key r)); dec (Z.of_nat (length (fr_pages r)))] [30; 10; 16; 8; 6]%nat s) rows ss.
Proof. exact fonts_table_lines. Qed.
Print Assumptions C90_table.
Definition fonts_tree (d : doc) : ptree := match plant 9 d with Some t => t | None => Leaf PNone [] end.
Lemma arial_ok : Forall (citem_ok 2) arial_map.
Proof.
  constructor; [|constructor; [|constructor; [|constructor; [|constructor]]]]; cbn [citem_ok].
  - vm_compute. intuition discriminate.
  - auto.
  - split; [discriminate|]. constructor; [|constructor]. split; [unfold code_ok; cbn [fst]; change (256 ^ Z.of_nat 2) with 65536; lia|]. repeat constructor; unfold scalar; lia.
  - split; [discriminate|]. constructor; [|constructor]. cbn [rdecl_ok]. unfold code_ok, scalar. change (256 ^ Z.of_nat 2) with 65536. repeat split; try lia.
Qed.
Lemma arial_section : has_section arial_map.
Proof. eexists. split; [right; right; left; reflexivity|exact I]. Qed.
Lemma helvetica_usable : exists f, usable fonts_doc (PRef 0 5) f.
Proof.
  eexists. split.
  - apply De_ref; [lia|vm_compute; reflexivity].
  - eexists _, _. vm_compute. reflexivity.
  - eexists _, _. vm_compute. reflexivity.
  - eexists. eapply Wr_simple; [reflexivity|reflexivity|apply De_val; discriminate|reflexivity|apply De_val; discriminate|intro c; reflexivity].
  - exists (apply_encoding PNone). apply Tr_encoding; [reflexivity|]. intros raw s F E. now apply Facts_Text.encoding_ascii.
Qed.
Lemma arial_usable : exists f, usable fonts_doc (PRef 0 6) f.
Proof.
  eexists. split.
  - apply De_ref; [lia|vm_compute; reflexivity].
  - eexists _, _. vm_compute. reflexivity.
  - eexists _, _. vm_compute. reflexivity.
  - eexists. eapply (Wr_descendant _ _ _ _ _ _ _ _ [WRun 1 [PInt 400; PInt 450]; WRange 7 9 (PInt 600)] (PInt 900));
      [reflexivity|reflexivity|reflexivity|apply De_val; discriminate|apply De_ref; [lia|vm_compute; reflexivity]|reflexivity|apply De_val; discriminate|discriminate| |intro c; reflexivity].
    right. eexists. split; [reflexivity|apply De_val; discriminate].
  - exists (apply_tounicode (cmap_code 2 arial_map)). eapply (Tr_map _ _ _ _ _ _ _ arial_map 2);
      [reflexivity|reflexivity|apply De_ref; [lia|vm_compute; reflexivity]|lia|exact arial_ok|exact arial_section|vm_compute; reflexivity| | ].
    + intros cs s F E. apply Facts_Text.tounicode_literal; auto using arial_ok; try lia; exact arial_section.
    + intros cs F. apply Facts_Text.tounicode_hex; auto using arial_ok; try lia; exact arial_section.
Qed.
Definition fonts_lists : list dict := [[(B "/F2", PRef 0 6); (B "/F1", PRef 0 5)]; [(B "/G", PRef 0 5)]].
Example C90_case : coherent fonts_doc /\ has_tree fonts_doc (fonts_tree fonts_doc) /\ (depth (fonts_tree fonts_doc) < 5)%nat /\
  dget K_Count (tdict (fonts_tree fonts_doc)) = Some (PInt 2) /\ length (leaves (fonts_tree fonts_doc)) = 2%nat /\
  Forall2 (fun x l => page_font_dict fonts_doc (leaf_page x) l) (leaves (fonts_tree fonts_doc)) fonts_lists /\
  Forall (Forall (fun kv => exists f, usable fonts_doc (snd kv) f)) fonts_lists /\
  exists base' d', fonts 5 fonts_doc [] = Ok ([mk_frow (0, 6) (B "Arial") (B "Type0") (B "Identity-H") [0] true; mk_frow (0, 5) (B "Helvetica") (B "Type1") (B "built-in") [0; 1] false], base', d').
Proof.
  split; [apply coherentb_ok; vm_compute; reflexivity|]. split; [apply (@plant_ok store_codec 9); vm_compute; reflexivity|].
  split; [apply Nat.ltb_lt; vm_compute; reflexivity|]. split; [vm_compute; reflexivity|]. split; [vm_compute; reflexivity|]. split; [|split].
  - unfold fonts_lists. set (t := fonts_tree fonts_doc). vm_compute in t. subst t. cbn [leaves flat_map app]. constructor; [|constructor; [|constructor]];
      (eapply Pf_dict; [reflexivity|reflexivity|apply De_val; discriminate|reflexivity]).
  - repeat constructor; cbn [snd]; auto using helvetica_usable, arial_usable.
  - do 2 eexists. vm_compute. reflexivity.
Qed.
(* a page with the resources of its parent *)
Theorem C90_inherited_refuted : exists d t x f g, coherent d /\ has_tree d t /\ at_index (leaves t) 1 x /\ dget K_Resources (leaf_page x) = None /\
  inherited [] x K_Resources (Some (PDict [(K_Font, PDict [f; g])])) /\ fonts 5 d [] = Exc EKeyError.
Proof.
  exists fonts_inherited, (fonts_tree fonts_inherited). do 3 eexists. split; [apply coherentb_ok; vm_compute; reflexivity|]. split; [apply (@plant_ok store_codec 9); vm_compute; reflexivity|].
  split; [exists 1%nat; split; [vm_compute; reflexivity|left; reflexivity]|]. split; [vm_compute; reflexivity|].
  split; [apply In_near; [unfold inheritable_key; cbn; tauto|vm_compute; apply Ne_here; [reflexivity|discriminate]]|vm_compute; reflexivity].
Qed.
Print Assumptions C90_inherited_refuted.
(* fonts of a page in a separate object *)
Theorem C90_indirect_refuted : exists d t x res o l, coherent d /\ has_tree d t /\ at_index (leaves t) 1 x /\ dget K_Resources (leaf_page x) = Some (PDict res) /\
  dget K_Font res = Some o /\ deref d o (PDict l) /\ fonts 5 d [] = Exc ETypeError.
Proof.
  exists fonts_indirect, (fonts_tree fonts_indirect). do 4 eexists. split; [apply coherentb_ok; vm_compute; reflexivity|]. split; [apply (@plant_ok store_codec 9); vm_compute; reflexivity|].
  split; [exists 1%nat; split; [vm_compute; reflexivity|left; reflexivity]|]. split; [vm_compute; reflexivity|]. split; [vm_compute; reflexivity|]. split; [apply De_ref; [lia|vm_compute; reflexivity]|vm_compute; reflexivity].
Qed.
Print Assumptions C90_indirect_refuted.
(* a font of type 3, which has no name *)
Theorem C90_nameless_refuted : exists d t f, coherent d /\ has_tree d t /\ deref d (PRef 0 6) (PDict f) /\ dget K_Subtype f = Some (PStr (B "/Type3")) /\ fonts 5 d [] = Exc EKeyError.
Proof.
  exists fonts_nameless, (fonts_tree fonts_nameless). eexists. split; [apply coherentb_ok; vm_compute; reflexivity|]. split; [apply (@plant_ok store_codec 9); vm_compute; reflexivity|].
  split; [apply De_ref; [lia|vm_compute; reflexivity]|]. split; vm_compute; reflexivity.
Qed.
Print Assumptions C90_nameless_refuted.
(* a font with two names on a page: the document has two pages, the font is said to be on three *)
Theorem C90_twice_refuted : exists d t rows base' d', coherent d /\ has_tree d t /\ length (leaves t) = 2%nat /\ fonts 5 d [] = Ok (rows, base', d') /\
  exists r, In r rows /\ fr_pages r = [0; 1; 1].
Proof.
  exists fonts_twice, (fonts_tree fonts_twice). do 3 eexists. split; [apply coherentb_ok; vm_compute; reflexivity|]. split; [apply (@plant_ok store_codec 9); vm_compute; reflexivity|].
  split; [vm_compute; reflexivity|]. split; [vm_compute; reflexivity|]. eexists. split; [right; left; reflexivity|vm_compute; reflexivity].
Qed.
Print Assumptions C90_twice_refuted.

(* ---- C91 ---- *)
(* full statement: for every page.  It fails for the pages and fonts of C90, and for pages
   without /Contents; and the layout is the one of C81 *)
Theorem C91_page_text_partial : forall {ZL : Zlib} d t fuel base i x l cs,
  coherent d -> has_tree d t -> (depth t < fuel)%nat -> at_index (leaves t) i x ->
  page_font_dict d (leaf_page x) l -> Forall (fun kv => exists f, usable d (snd kv) f) l -> page_contents d (leaf_page x) cs ->
  exists fs base' d', Forall2 (fun kv kf => fst kv = fst kf /\ exists f, deref d (snd kv) (PDict f) /\ prepared d f (snd kf)) l fs /\ same_values d d' /\
    extract_page_text fuel d base i = (let* text := page_text cs fs in Ok (text, base', d')).
Proof. intros ZL d t fuel base i x l cs. exact (text_total t fuel d base i x l cs). Qed.
Print Assumptions C91_page_text_partial.
Theorem C91_fragments_partial : forall {ZL : Zlib} d t fuel base i x l cs out base' d',
  coherent d -> has_tree d t -> (depth t < fuel)%nat -> at_index (leaves t) i x ->
  page_font_dict d (leaf_page x) l -> Forall (fun kv => exists f, usable d (snd kv) f) l -> page_contents d (leaf_page x) cs ->
  extract_page_text fuel d base i = Ok (out, base', d') -> same_values d d' /\
  exists fs tfs order, Forall2 (fun kv kf => fst kv = fst kf /\ exists f, deref d (snd kv) (PDict f) /\ prepared d f (snd kf)) l fs /\
    build_text_fragments cs fs = Ok tfs /\ Permutation (map (fun f => snd (fst f)) tfs) order /\ ink out = ink (concat order).
Proof. intros ZL d t fuel base i x l cs out base' d'. exact (text_of_page t fuel d base i x l cs out base' d'). Qed.
Print Assumptions C91_fragments_partial.
Theorem C91_refuted : exists d t x f g, coherent d /\ has_tree d t /\ at_index (leaves t) 1 x /\ dget K_Resources (leaf_page x) = None /\
  inherited [] x K_Resources (Some (PDict [(K_Font, PDict [f; g])])) /\ extract_page_text 5 d [] 1 = Exc EKeyError.
Proof.
  exists fonts_inherited, (fonts_tree fonts_inherited). do 3 eexists. split; [apply coherentb_ok; vm_compute; reflexivity|]. split; [apply (@plant_ok store_codec 9); vm_compute; reflexivity|].
  split; [exists 1%nat; split; [vm_compute; reflexivity|left; reflexivity]|]. split; [vm_compute; reflexivity|].
  split; [apply In_near; [unfold inheritable_key; cbn; tauto|vm_compute; apply Ne_here; [reflexivity|discriminate]]|vm_compute; reflexivity].
Qed.
Print Assumptions C91_refuted.
Example C91_case : exists x cs, at_index (leaves (fonts_tree fonts_doc)) 0 x /\ page_contents fonts_doc (leaf_page x) cs /\
  exists base' d', extract_page_text 5 fonts_doc [] 0 = Ok (B "AB" ++ [10; 10; 72; 233; 8365; 10], base', d').
Proof.
  eexists _, _. split; [exists 0%nat; split; [vm_compute; reflexivity|left; reflexivity]|]. split.
  - exists [PRef 0 8]. eexists. split; [|split; [reflexivity|left; vm_compute; reflexivity]]. constructor; [|constructor].
    eapply Pa_one; [apply De_ref; [lia|vm_compute; reflexivity]|discriminate|apply De_val; discriminate].
  - do 2 eexists. vm_compute. reflexivity.
Qed.
