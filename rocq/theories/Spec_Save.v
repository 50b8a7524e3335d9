(* Specification vocabulary for saving and reloading documents. *)
From Coq Require Import String.
From Verif Require Import PyBase Model_Filters Model_Objects Model_Filestruct Model_Docstruct Model_Api.
From Verif Require Import Spec_Objects Spec_Filestruct Spec_Docstruct.

Section WithZlib.
Context {ZL : Zlib}.

(* an object that survives being written as it is: object streams are completed when they
   are written *)
Definition savable (o : obj) : Prop := storable o /\ is_objstm o = false.

(* a new document: one open revision, every object in memory (what blank() and squash()
   make before they commit) *)
Record unsaved (d : doc) : Prop := mk_unsaved {
  us_shape : exists row p, d_index d = [row] /\ d_data d = [mk_datum None None (Some p)] /\
    length (d_cache d) = length row /\ (2 <= length row)%nat /\
    (exists e0, cell row 0 (SDict e0) /\ n_env e0 = None /\ n_xsn e0 = None /\ n_del e0 = false) /\
    forall n s, 0 < n -> cell row n s -> exists e o, s = SDict e /\ n_num e = n /\ n_gen e = 0 /\ n_env e = None /\
      n_over e <> None /\ n_del e = false /\ n_pos e = None /\ cell (d_cache d) n o /\ savable o;
  us_trailer : exists t, cell (d_cache d) 0 (PDict t) /\ wfv (PDict t) /\
    dget K_Prev t = None /\ dget K_XRefStm t = None
}.

(* documents made from a new one by reads, additions and updates of savable
   objects, commits, and by saving and loading what was saved *)
Inductive authored : doc -> Prop :=
| Au_new d : unsaved d -> authored d
| Au_read d g n v d1 : authored d -> 0 <= n -> get_object d (PRef g n) = Ok (v, d1) -> authored d1
| Au_update d n o d1 : authored d -> 0 < n -> savable o -> update_object d n o = Ok d1 -> authored d1
| Au_add d o d1 r : authored d -> savable o -> add_object d o = Ok (d1, r) -> authored d1
| Au_commit d d1 : authored d -> commit d = Ok d1 -> authored d1
| Au_reload d out d1 fuel d2 : authored d -> writefile d = Ok (out, d1) -> blen out < 10 ^ 10 ->
    (length (d_index d1) <= fuel)%nat -> loads fuel out = Ok d2 -> authored d2.

(* the open revision of d1 after some reads, updates and additions *)
Inductive edited (d1 : doc) : doc -> Prop :=
| Ei_none : edited d1 d1
| Ei_read d g n v d2 : edited d1 d -> 0 <= n -> get_object d (PRef g n) = Ok (v, d2) -> edited d1 d2
| Ei_update d n o d2 : edited d1 d -> 0 < n -> savable o -> update_object d n o = Ok d2 -> edited d1 d2
| Ei_add d o d2 r : edited d1 d -> savable o -> add_object d o = Ok (d2, r) -> edited d1 d2.

(* the same entries, dictionaries compared regardless of order, except under key x *)
Definition same_entries (x : bytes) (t1 t2 : dict) : Prop :=
  forall k, k <> x -> (dget k t1 = None <-> dget k t2 = None) /\
    forall a b, dget k t1 = Some a -> dget k t2 = Some b -> peq a b.

End WithZlib.
