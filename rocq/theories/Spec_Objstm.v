(* Specification of object streams: objects put in, objects read again *)
From Verif Require Import PyBase Model_Filters Model_Objects Model_Filestruct Spec_Objects.

(* objects put one after the other in an object stream *)
Fixpoint pack (objs : list (Z * obj)) (env : obj) : res obj :=
  match objs with
  | [] => Ok env
  | (n, o) :: r => let* e := append_to_stream_fragment n o env in pack r e
  end.
(* one of them read again: its number, its value, the stream it comes from, and a position
   that is the one given by the first line of the stream *)
Definition unpacked (env : Z) (p : Z * obj) (e : embobj) : Prop :=
  e_num e = PInt (fst p) /\ peq (snd p) (e_obj e) /\ e_env e = env /\ e_theo e = Some (e_pos e).
