(* Specification vocabulary for the command overview *)
From Coq Require Import String.
From Verif Require Import PyBase Model_Filters Model_Objects Model_Filestruct Model_Structure.
Open Scope Z_scope.

(* the text printed for an entry of the information dictionary; the texts of a protected
   document are not decrypted, and not shown *)
Inductive entry_value (hidden : Prop) : option bytes -> bytes -> Prop :=
| En_none : entry_value hidden None (B "None")
| En_hidden t : hidden -> entry_value hidden (Some t) (B "#Encrypted#")
| En_text t : ~ hidden -> entry_value hidden (Some t) t.
Definition lines_text (l : list (bytes * bytes)) : bytes := concat (map (fun kv => fst kv ++ B ": " ++ snd kv ++ [10]) l).
Definition yes_no (P : Prop) (t : bytes) : Prop := (P /\ t = B "True") \/ (~ P /\ t = B "False").
