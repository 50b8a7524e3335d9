(* Specification vocabulary for the functions of the api *)
From Coq Require Import String.
From Verif Require Import PyBase Model_Filters Model_Objects Model_Filestruct Model_Text Model_Docstruct Model_Api.
From Verif Require Import Spec_Objects Spec_Filestruct Spec_Docstruct.

Definition starts_with (s p : bytes) : Prop := exists r, s = p ++ r.
Definition eol (c : Z) : Prop := c = 10 \/ c = 13.
(* the last end-of-file marker of f is before tail and is followed by the line ends l *)
Definition last_marker (f : bytes) (body l tail : bytes) : Prop :=
  f = body ++ B "%%EOF" ++ l ++ tail /\ Forall eol l /\ match tail with c :: _ => ~ eol c | [] => True end /\
  forall b r, f = b ++ B "%%EOF" ++ r -> (length b <= length body)%nat.

Section WithZlib.
Context {ZL : Zlib}.

(* one call that gives a document derived from another one; sets are iterated over in any order *)
Inductive operation : doc -> doc -> Prop :=
| Op_get d o v d1 : get_object d o = Ok (v, d1) -> operation d d1
| Op_update d n o d1 : update_object d n o = Ok d1 -> operation d d1
| Op_add d o d1 r : add_object d o = Ok (d1, r) -> operation d d1
| Op_commit d d1 : commit d = Ok d1 -> operation d d1
| Op_version d v d1 : update_version d v = Ok d1 -> operation d d1
| Op_force d b f d1 : force_xref_stream d b f = Ok d1 -> operation d d1
| Op_group d e l d1 : group_obj_into_stream d e l = Ok d1 -> operation d d1
| Op_rotate d f i z l d1 i' : rotate f d i z l = Ok (d1, i') -> operation d d1
| Op_filter d l f d1 : apply_filter d l f = Ok d1 -> operation d d1
| Op_annot d f i n t r o d1 i' : add_text_annotation f d i n t r o = Ok (d1, i') -> operation d d1
| Op_remove ord d f i l d1 i' : remove_pages ord f d i l = Ok (d1, i') -> operation d d1
| Op_keep ord d f i l d1 i' : keep_pages ord f d i l = Ok (d1, i') -> operation d d1
| Op_item ord d f i k d1 i' : getitem ord f d i k = Ok (d1, i') -> operation d d1
| Op_concat_left d e d1 : concat_docs d e true = Ok d1 -> operation d d1
| Op_concat_right d e d1 : concat_docs e d false = Ok d1 -> operation d d1
| Op_write d out d1 : writefile d = Ok (out, d1) -> operation d d1.
Inductive operations : doc -> doc -> Prop :=
| Os_nil d : operations d d
| Os_cons d d1 d2 : operation d d1 -> operations d1 d2 -> operations d d2.

End WithZlib.
