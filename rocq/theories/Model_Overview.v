(* Model of the command overview (cli.py:384-398): what is printed *)
From Coq Require Import String.
From Verif Require Import PyBase Model_Filters Model_Objects Model_Filestruct Model_Text Model_Docstruct Model_Api Model_Graphics Model_Structure.
Open Scope Z_scope.

Definition field (k v : bytes) : bytes := k ++ B ": " ++ v ++ [10].
Definition py_bool (b : bool) : bytes := if b then B "True" else B "False".
Section Overview.
Context {ZL : Zlib}.
(* how Python formats the number of pages *)
Context (show : obj -> bytes).
(* cli.py:389-391 *)
Definition structure_text (a : about) : bytes :=
  B "# Structure" ++ [10] ++ field (B "Version") (a_version a) ++ field (B "Pages") (show (a_pages a)) ++ field (B "Revisions") (dec (a_revisions a)) ++
  field (B "Encrypted") (py_bool (a_encrypted a)) ++ field (B "Hybrid") (py_bool (a_hybrid a)) ++ field (B "Linearized") (py_bool (a_linearized a)) ++
  field (B "Paper of 1st page") (a_paper a).
(* cli.py:392-397 *)
Definition metadata_line (encrypted : bool) (kv : bytes * option bytes) : bytes :=
  match snd kv with
  | None => field (fst kv) (B "None")
  | Some [] => field (fst kv) []
  | Some t => field (fst kv) (if encrypted then B "#Encrypted#" else t)
  end.
Definition overview_text (a : about) (m : list (bytes * option bytes)) : bytes :=
  structure_text a ++ [10] ++ B "# Metadata" ++ [10] ++ flat_map (metadata_line (a_encrypted a)) m.
(* cli.py:384-398, for a document that was read *)
Definition overview (fuel : nat) (d : doc) (leak : dict) : res (bytes * dict * doc) :=
  let* (a, leak', d1) := structure fuel d leak in
  let* (m, d2) := metadata d1 in
  Ok (overview_text a m, leak', d2).
End Overview.
