(* Property C118: what the command spatial prints *)
From Coq Require Import String QArith Qcanon.
From Verif Require Import PyBase Model_Filters Model_Objects Model_Filestruct Model_Text Model_Docstruct Model_Api Model_Graphics Model_Layout Model_Fonts Model_Spatial.
From Verif Require Import Spec_Filters Spec_Objects Spec_Filestruct Spec_Docstruct Spec_Pages Spec_Text Spec_Calls Spec_Fonts Spec_Spatial.
From Verif Require Import Facts_Base Facts_Doc Facts_Checks Facts_Fonts Facts_Spatial Cases_Docstruct Cases_Fonts Props_Fonts.
Open Scope Z_scope.

(* ---- C118 ---- *)
(* full statement: spatial prints the text of each page, in the order of the pages; a page whose
   text is an error ends the command after the texts of the pages before it; no object changes.
   Missing below: pages that are not legible, for instance those with the resources of their
   parent (C118_refuted).  What the text of a page is: C81, C82, C91 *)
Theorem C118_spatial_partial : forall {ZL : Zlib} t fuel d base,
  coherent d -> has_tree d t -> (depth t < fuel)%nat -> Forall (fun x => legible d (leaf_page x)) (leaves t) ->
  exists out r e, spatial fuel d base = (out, r) /\ pages_show d (map leaf_page (leaves t)) out e /\
    match r with Ok (_, d') => e = Ok tt /\ same_values d d' | Exc x => e = Exc x | Loop => e = Loop end.
Proof. intros ZL. exact spatial_spec. Qed.
Print Assumptions C118_spatial_partial.

#[local] Existing Instance store_codec.
(* the second page has the contents of the first one and the fonts of its parent, as the format
   allows: only the first page is printed *)
Theorem C118_refuted : exists d t x y f g, coherent d /\ has_tree d t /\ leaves t = [x; y] /\
  dget K_Resources (leaf_page x) = Some (PDict [(K_Font, PDict [f; g])]) /\ dget K_Contents (leaf_page x) = Some (PList [PRef 0 8]) /\
  dget K_Resources (leaf_page y) = None /\ inherited [] y K_Resources (Some (PDict [(K_Font, PDict [f; g])])) /\ dget K_Contents (leaf_page y) = Some (PRef 0 8) /\
  spatial 5 d [] = (B "AB" ++ [10; 10; 72; 233; 8365; 10; 10], Exc EKeyError).
Proof.
  exists fonts_inherited, (fonts_tree fonts_inherited). do 4 eexists. split; [apply coherentb_ok; vm_compute; reflexivity|]. split; [apply (@plant_ok store_codec 9); vm_compute; reflexivity|].
  split; [vm_compute; reflexivity|]. split; [vm_compute; reflexivity|]. split; [vm_compute; reflexivity|]. split; [vm_compute; reflexivity|].
  split; [apply In_near; [unfold inheritable_key; cbn; tauto|vm_compute; apply Ne_here; [reflexivity|discriminate]]|]. split; vm_compute; reflexivity.
Qed.
Print Assumptions C118_refuted.
(* two pages, the second one is empty *)
Example C118_case : coherent fonts_doc /\ has_tree fonts_doc (fonts_tree fonts_doc) /\ (depth (fonts_tree fonts_doc) < 5)%nat /\
  Forall (fun x => legible fonts_doc (leaf_page x)) (leaves (fonts_tree fonts_doc)) /\
  exists base' d', spatial 5 fonts_doc [] = (B "AB" ++ [10; 10; 72; 233; 8365; 10; 10; 10], Ok (base', d')).
Proof.
  destruct C90_case as (C & HT & D & _ & _ & PF & AU & _). split; [exact C|]. split; [exact HT|]. split; [exact D|]. split; [|do 2 eexists; vm_compute; reflexivity].
  assert (PC : Forall (fun x => exists cs, page_contents fonts_doc (leaf_page x) cs) (leaves (fonts_tree fonts_doc))).
  { set (t := fonts_tree fonts_doc). vm_compute in t. subst t. cbn [leaves flat_map app]. constructor; [|constructor; [|constructor]]; eexists.
    - exists [PRef 0 8]. eexists. split; [|split; [reflexivity|left; vm_compute; reflexivity]]. constructor; [|constructor].
      eapply Pa_one; [apply De_ref; [lia|vm_compute; reflexivity]|discriminate|apply De_val; discriminate].
    - exists []. eexists. split; [constructor|]. split; [reflexivity|left; vm_compute; reflexivity]. }
  clear - PF AU PC. revert PC. induction PF as [|x l xs ls P PF IH]; intro PC; [constructor|]. inversion AU as [|? ? A1 A2]; subst. inversion PC as [|? ? (cs & P1) P2]; subst. constructor; [|auto].
  exists l, cs. auto.
Qed.
