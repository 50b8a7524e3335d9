(* The version of a squashed document *)
From Coq Require Import String.
From Verif Require Import PyBase Model_Filters Model_Objects Model_Filestruct Model_Docstruct Model_Api.
From Verif Require Import Spec_Filters Spec_Objects Spec_Filestruct Spec_Docstruct Spec_Pages Spec_Squash.
From Verif Require Import Facts_Base Facts_Doc Facts_Edit Facts_Checks Facts_Squash Facts_Concat Facts_Versions Cases_Docstruct Cases_Pages Cases_Squash.

(* ---- C103 ---- *)
(* full statement: squash keeps the version of the document, and the new file starts with it.
   Missing below: documents with object streams (where it can
   fail: C103_stale_refuted), cells that do not carry their own numbers, null
   objects (as in C35) *)
Theorem C103_squash_version_partial : forall {ZL : Zlib} d c cat s d1 v dv,
  editable d -> self_numbered d -> catalog_at d c cat -> all_storable d -> exact_root d ->
  version d = Ok (v, dv) -> Forall (fun x => 0 <= x < 128) v -> squash d = Ok (Some s, d1) ->
  (exists s1, version s = Ok (v, s1)) /\ d_data s = [mk_datum None None (Some (PvDummy (B "%PDF-" ++ v)))].
Proof. intros ZL. exact (@squash_version ZL). Qed.
Print Assumptions C103_squash_version_partial.
(* the version is that of the catalog: the header of the file has an older one *)
Definition newer_doc : doc := Eval vm_compute in get_ok no_doc (@update_version store_codec gap_doc (B "1.7")).
Example C103_case : exists c cat s d1 dv, editable newer_doc /\ self_numbered newer_doc /\ @catalog_at store_codec newer_doc c cat /\ @all_storable store_codec newer_doc /\ @exact_root store_codec newer_doc /\
  @version store_codec gap_doc = Ok (B "1.4", gap_doc) /\ @version store_codec newer_doc = Ok (B "1.7", dv) /\ @squash store_codec newer_doc = Ok (Some s, d1) /\ @version store_codec s = Ok (B "1.7", s).
Proof.
  destruct (@squashable_ok store_codec newer_doc) as (A & K & _); [vm_compute; reflexivity|]. destruct (@catalog_of store_codec newer_doc) as [[c cat]|] eqn:E; [|discriminate].
  exists c, cat. do 3 eexists. split; [apply editableb_ok; vm_compute; reflexivity|]. split; [exact A|]. split; [apply (catalog_of_ok _ _ _ E)|]. split; [exact K|]. split; [apply rootb_ok; vm_compute; reflexivity|].
  split; [vm_compute; reflexivity|]. split; [vm_compute; reflexivity|]. split; [vm_compute; reflexivity|]. vm_compute. reflexivity.
Qed.
