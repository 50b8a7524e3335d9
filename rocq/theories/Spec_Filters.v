(* Specification of the filters, independent of the model's helpers *)
From Verif Require Import PyBase Model_Filters.

(* PNG "Up": each byte minus the byte above, modulo 256 *)
Fixpoint up_diff (row prev : bytes) : bytes :=
  match row, prev with
  | a :: r, b :: p => (a - b) mod 256 :: up_diff r p
  | _, _ => []
  end.
(* rows with their tag bytes; the row above the first one is [prev] *)
Fixpoint up_encode (prev : bytes) (rows : list (Z * bytes)) : bytes :=
  match rows with
  | [] => []
  | (tag, r) :: rs => tag :: up_diff r prev ++ up_encode r rs
  end.

(* a codec satisfying the law assumed of zlib (used in the examples only) *)
Definition store_codec : Zlib := {| z_compress := fun b => b; z_decompress := fun b => Some b |}.
