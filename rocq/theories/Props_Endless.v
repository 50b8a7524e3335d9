(* Whether the listing of the pages ends *)
From Coq Require Import String.
From Verif Require Import PyBase Model_Filters Model_Objects Model_Filestruct Model_Docstruct Model_Api.
From Verif Require Import Spec_Filters Spec_Objects Spec_Filestruct Spec_Docstruct Spec_Pages Spec_Endless.
From Verif Require Import Facts_Base Facts_Obj Facts_Doc Facts_Edit Facts_Pages Facts_Checks Facts_Endless Cases_Docstruct Cases_Pages.
From Coq Require Import ZifyBool ZifyNat.

(* ---- C114 ---- *)
(* Loop stands for a call that is given more fuel than the recursion of the code can use up
   and still has no result: the code recurses without end *)
Theorem C114_ends_partial : forall {ZL : Zlib} d t, coherent d -> has_tree d t ->
  exists f0, forall fuel base, (f0 <= fuel)%nat ->
    (exists l base' d', flat_page_tree fuel d base None = Ok (Some l, base', d')) /\ (exists l base' d', pages fuel d base None = Ok (l, base', d')).
Proof.
  intros ZL d t C H. exists (S (depth t)). intros fuel base L. split.
  - destruct (flat_spec t fuel d base C H ltac:(lia)) as (l & b & d1 & E & _). eauto.
  - destruct (pages_spec t fuel d base C H ltac:(lia)) as (l & b & d1 & E & _). eauto.
Qed.
Print Assumptions C114_ends_partial.
Theorem C114_cycles : forall {ZL : Zlib} d, coherent d -> endless_tree d -> forall fuel base,
  flat_page_tree fuel d base None = Loop /\ pages fuel d base None = Loop /\ page_layouts fuel d base None = Loop /\
  (forall a pgs, rotate fuel d base a pgs = Loop) /\ (forall ord pgs, remove_pages ord fuel d base pgs = Loop).
Proof.
  intros ZL d C (c & cat & o & P & CA & PG & E & H) fuel base. destruct (endless_pages d c cat P o fuel base C CA PG E H) as [F G].
  assert (L : page_layouts fuel d base None = Loop) by (unfold page_layouts; rewrite G; reflexivity).
  split; [exact F|]. split; [exact G|]. split; [exact L|]. split; intros; [unfold rotate; rewrite L|unfold remove_pages; rewrite F]; reflexivity.
Qed.
Print Assumptions C114_cycles.
(* a kid of the root that is None, 0 or empty stands for the root again *)
Theorem C114_null_kid : forall {ZL : Zlib} d c cat o n nd before k after, coherent d -> catalog_at d c cat -> dget K_Pages cat = Some o -> points_at d o n (PDict nd) ->
  dget K_Type nd = Some (PStr K_Pages) -> dget K_Kids nd = Some (PList (map tref before ++ k :: after)) -> Forall (holds d) before -> k = PNone \/ k = PInt 0 \/ k = PList [] ->
  forall fuel base, flat_page_tree fuel d base None = Loop.
Proof. intros ZL d c cat o n nd before k after C CA PG A T K F NK fuel base. eapply null_pages; eauto. destruct NK as [-> | [-> | ->]]; reflexivity. Qed.
Print Assumptions C114_null_kid.

(* the root has the page 3 and the node 4, whose kid is the root *)
Definition cyclic_file : bytes := Eval vm_compute in get_ok []
  (let* d1 := update_object blank_doc 2 (PDict [(K_Type, PStr K_Pages); (K_Kids, PList [PRef 0 3; PRef 0 4]); (K_Count, PInt 1)]) in
   let* d2 := add2 d1 (PDict [(K_Type, PStr K_Pages); (K_Kids, PList [PRef 0 2]); (K_Count, PInt 1); (K_Parent, PRef 0 2)]) in
   let* (b, _) := @writefile store_codec d2 in Ok b).
Definition cyclic_doc : doc := Eval vm_compute in get_ok no_doc (@loads store_codec 10 cyclic_file).
(* the same root given a kid None by update_object *)
Definition null_kid_doc : doc := Eval vm_compute in get_ok no_doc (update_object loaded_doc 2 (PDict [(K_Type, PStr K_Pages); (K_Kids, PList [PRef 0 3; PNone]); (K_Count, PInt 1)])).
Definition only_kid (d : doc) : list ptree := match @grow store_codec 5 d (PRef 0 3) with Some t => [t] | None => [] end.
Lemma only_kid_ok d : Forall (@holds store_codec d) (only_kid d).
Proof. unfold only_kid. destruct (grow 5 d (PRef 0 3)) as [t|] eqn:G; [|constructor]. constructor; [|constructor]. exact (proj1 (grow_holds _ _ _ _ G)). Qed.
Definition node_of (d : doc) (n : Z) : dict := match @value store_codec d n with Ok (PDict x) => x | _ => [] end.
Example C114_case : @loads store_codec 10 cyclic_file = Ok cyclic_doc /\ @coherent store_codec cyclic_doc /\ @endless_tree store_codec cyclic_doc /\
  update_object loaded_doc 2 (PDict [(K_Type, PStr K_Pages); (K_Kids, PList [PRef 0 3; PNone]); (K_Count, PInt 1)]) = Ok null_kid_doc /\ @coherent store_codec null_kid_doc /\
  exists cat, @catalog_at store_codec null_kid_doc 1 cat /\ dget K_Pages cat = Some (PRef 0 2) /\ @points_at store_codec null_kid_doc (PRef 0 2) 2 (PDict (node_of null_kid_doc 2)) /\
    dget K_Type (node_of null_kid_doc 2) = Some (PStr K_Pages) /\ dget K_Kids (node_of null_kid_doc 2) = Some (PList (map tref (only_kid null_kid_doc) ++ PNone :: [])) /\
    Forall (@holds store_codec null_kid_doc) (only_kid null_kid_doc).
Proof.
  split; [vm_compute; reflexivity|]. split; [apply editable_coherent, editableb_ok; vm_compute; reflexivity|]. split.
  - destruct (@catalog_of store_codec cyclic_doc) as [[c cat]|] eqn:CO; [|vm_compute in CO; discriminate]. pose proof (proj1 (catalog_of_ok _ _ _ CO)) as CA.
    exists c, cat, (PRef 0 2), (fun o => o = PRef 0 2 \/ o = PRef 0 4). split; [exact CA|]. split; [vm_compute in CO; injection CO as <- <-; vm_compute; reflexivity|]. split; [|auto].
    intros o [-> | ->].
    + exists 2, (node_of cyclic_doc 2), (only_kid cyclic_doc), (PRef 0 4), []. split; [exists 0; split; [reflexivity|]; split; [lia|vm_compute; reflexivity]|]. split; [vm_compute; reflexivity|]. split; [vm_compute; reflexivity|]. split; [|auto].
      apply only_kid_ok.
    + exists 4, (node_of cyclic_doc 4), [], (PRef 0 2), []. split; [exists 0; split; [reflexivity|]; split; [lia|vm_compute; reflexivity]|]. split; [vm_compute; reflexivity|]. split; [vm_compute; reflexivity|]. split; [constructor|auto].
  - split; [vm_compute; reflexivity|]. split; [apply editable_coherent, editableb_ok; vm_compute; reflexivity|]. exists (node_of null_kid_doc 1).
    split; [apply (@catalog_of_ok store_codec); vm_compute; reflexivity|]. split; [vm_compute; reflexivity|]. split; [exists 0; split; [reflexivity|]; split; [lia|vm_compute; reflexivity]|]. split; [vm_compute; reflexivity|]. split; [vm_compute; reflexivity|].
    apply only_kid_ok.
Qed.
(* a file that is loaded, and whose pages are never listed *)
Theorem C114_refuted : exists (file : bytes) d, @loads store_codec 10 file = Ok d /\ forall fuel base,
  @flat_page_tree store_codec fuel d base None = Loop /\ @pages store_codec fuel d base None = Loop.
Proof.
  exists cyclic_file, cyclic_doc. destruct C114_case as (L & C & E & _). split; [exact L|]. intros fuel base. destruct (C114_cycles _ C E fuel base) as (H1 & H2 & _). auto.
Qed.
Print Assumptions C114_refuted.
