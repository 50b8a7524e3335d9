(* Detection of linearized files *)
From Coq Require Import String.
From Verif Require Import PyBase Model_Filters Model_Objects Model_Filestruct Spec_Objects Spec_Filters Spec_Filestruct.
From Verif Require Import Facts_Base Facts_Linear.

(* ---- C67 ---- *)
(* full statement: for all files whose first object is a dictionary.  It fails unless exactly one comment
   stands between the 8 bytes of the header and the first object *)
Theorem C67_linearized_partial : forall {ZL : Zlib} header sp comment eol sp' num gen d object rest,
  length header = 8%nat -> Forall white sp -> Forall (fun c => c <> 10 /\ c <> 13) comment -> (eol = 10 \/ eol = 13) -> Forall white sp' ->
  wfv (PDict d) -> serialize_fragment num gen (PDict d) = Ok object ->
  exists d', peq (PDict d) (PDict d') /\
    linearized (PvSingle (header ++ sp ++ B "%" ++ comment ++ [eol] ++ sp' ++ object ++ rest))
    = Ok (if dhas (B "/Linearized") d then Some d' else None).
Proof. intros ZL header sp comment eol sp' num gen d object rest. exact (linearized_spec header sp comment eol sp' num gen d object rest). Qed.
Print Assumptions C67_linearized_partial.
Definition lin_object := B "1 0 obj
<< /Linearized 1 /L 800 >>
endobj
".
Theorem C67_refuted : exists file, file = B "%PDF-1.4
" ++ lin_object /\ @linearized store_codec (PvSingle file) = Ok None.
Proof. eexists. split; [reflexivity|]. vm_compute. reflexivity. Qed.
Print Assumptions C67_refuted.
Theorem C67_two_comments_refuted : exists file, file = B "%PDF-1.4
%a
%b
" ++ lin_object /\ @linearized store_codec (PvSingle file) = Ok None.
Proof. eexists. split; [reflexivity|]. vm_compute. reflexivity. Qed.
Print Assumptions C67_two_comments_refuted.
Example C67_case : let d := [(B "/Linearized", PInt 1); (B "/L", PInt 800)] in wfv (PDict d) /\
  serialize_fragment 1 0 (PDict d) = Ok lin_object /\
  @linearized store_codec (PvSingle (B "%PDF-1.4
%a
" ++ lin_object)) = Ok (Some (rev d)).
Proof.
  split.
  - constructor.
    + repeat constructor; cbn; intuition discriminate.
    + repeat constructor; cbn; try discriminate; try (eexists; split; [reflexivity|]); repeat constructor; cbv; intuition discriminate.
  - split; vm_compute; reflexivity.
Qed.
