(* The metadata that squash keeps *)
From Coq Require Import String.
From Verif Require Import PyBase Model_Filters Model_Objects Model_Filestruct Model_Docstruct Model_Api.
From Verif Require Import Spec_Filters Spec_Objects Spec_Filestruct Spec_Docstruct Spec_Calls.
From Verif Require Import Facts_SquashInfo Cases_Docstruct Cases_Pages Cases_Squash.

(* ---- C36 ---- *)
(* full statement: metadata (squash d) = metadata d.  Missing below: the documents that have
   metadata, which is always lost *)
Theorem C36_kept_partial : forall {ZL : Zlib} d s d1 m d2, squash d = Ok (Some s, d1) -> metadata d = Ok (m, d2) ->
  ((exists s1, metadata s = Ok (m, s1)) <-> Forall (fun e => snd e = None) m).
Proof. intros ZL. exact (@squash_keeps ZL). Qed.
Print Assumptions C36_kept_partial.
(* a squashed document has no entry at all *)
Theorem C36_lost : forall {ZL : Zlib} d s d1, squash d = Ok (Some s, d1) ->
  exists s1, metadata s = Ok (map (fun k => (k, None)) info_keys, s1).
Proof. intros ZL. exact (@squash_metadata ZL). Qed.
Print Assumptions C36_lost.
Example C36_kept_case : exists s d1 m d2, @squash store_codec gap_doc = Ok (Some s, d1) /\ @metadata store_codec gap_doc = Ok (m, d2) /\ Forall (fun e => snd e = None) m.
Proof. do 4 eexists. split; [vm_compute; reflexivity|]. split; [vm_compute; reflexivity|]. repeat (constructor; [reflexivity|]). constructor. Qed.
Example C36_lost_case : exists s d1 m d2, @squash store_codec info_doc = Ok (Some s, d1) /\ @metadata store_codec info_doc = Ok (m, d2) /\ In (B "Title", Some (B "Title")) m.
Proof. do 4 eexists. split; [vm_compute; reflexivity|]. split; [vm_compute; reflexivity|]. left. reflexivity. Qed.
(* so the command compress loses it too, in the file that it writes *)
Theorem C36_compress_refuted : exists file d d1 c out d2 d3 d4 m m', @loads store_codec 10 file = Ok d /\
  @metadata store_codec d = Ok (m, d1) /\ In (B "Title", Some (B "Title")) m /\
  @compress store_codec d = Ok c /\ @writefile store_codec c = Ok (out, d2) /\ @loads store_codec 10 out = Ok d3 /\ @metadata store_codec d3 = Ok (m', d4) /\ In (B "Title", None) m'.
Proof.
  exists info_file, info_doc. do 8 eexists. split; [vm_compute; reflexivity|]. split; [vm_compute; reflexivity|]. split; [left; reflexivity|].
  split; [vm_compute; reflexivity|]. split; [vm_compute; reflexivity|]. split; [vm_compute; reflexivity|]. split; [vm_compute; reflexivity|]. left. reflexivity.
Qed.
Print Assumptions C36_compress_refuted.
