(* Specification vocabulary for squash and concat *)
From Coq Require Import String Sorted.
From Verif Require Import PyBase Model_Filters Model_Objects Model_Filestruct Model_Docstruct.
From Verif Require Import Spec_Objects Spec_Filestruct Spec_Docstruct Spec_Pages.

Section WithZlib.
Context {ZL : Zlib}.

(* the reference of object number n in the open revision; n is live *)
Definition names (d : doc) (r : ref) (n : Z) : Prop :=
  exists row e, open_row d row /\ 0 < n /\ cell row n (SDict e) /\ n_del e = false /\ r = (n_gen e, n).
(* the numbers of the live objects, in increasing order *)
Definition live_numbers (d : doc) (l : list Z) : Prop :=
  StronglySorted Z.lt l /\ forall n, In n l <-> exists r, names d r n.
(* the cells carry the numbers of their places *)
Definition self_numbered (d : doc) : Prop :=
  forall row n e, open_row d row -> 0 < n -> cell row n (SDict e) -> n_num e = n.
(* f renames the objects l of d to from, from + 1, ... and nothing else *)
Definition renumbering (d : doc) (from : Z) (l : list Z) (f : ref -> ref) : Prop :=
  (forall i n r, nth_error l i = Some n -> names d r n -> f r = (0, from + Z.of_nat i)) /\
  (forall r, (forall n, In n l -> ~ names d r n) -> f r = r).
(* what squash does to the value of an object: the references of a stream dictionary stay *)
Inductive carried (f : ref -> ref) : obj -> obj -> Prop :=
| Ca_stream sd s e : carried f (PStream sd s e) (PStream sd s e)
| Ca_other v v' : stream_free v -> renamed f v v' -> carried f v v'.
Definition storable_value (v : obj) : Prop := v <> PNone /\ (stream_free v \/ exists sd s e, v = PStream sd s e).
(* no object is null, and streams are not inside other objects *)
Definition all_storable (d : doc) : Prop := forall r n v, names d r n -> value d n = Ok v -> storable_value v.

(* d' holds the objects l of d and nothing else, numbered from 1 and renamed by f *)
Record squashed (d : doc) (l : list Z) (f : ref -> ref) (d' : doc) : Prop := {
  sq_editable : editable d';
  sq_live : forall n, (exists r, names d' r n) <-> 1 <= n <= Z.of_nat (length l);
  sq_gen : forall r n, names d' r n -> r = (0, n);
  sq_values : forall i n, nth_error l i = Some n -> exists v v', value d n = Ok v /\ carried f v v' /\ value d' (Z.of_nat i + 1) = Ok v';
  sq_root : exists t root root', value d 0 = Ok (PDict t) /\ dget K_Root t = Some root /\ renamed f root root' /\ value d' 0 = Ok (PDict [(K_Root, root')])
}.

(* every node of the tree is referred to by its number and its generation *)
Inductive exact_refs (d : doc) : ptree -> Prop :=
| Ex_leaf g n p : names d (g, n) n -> exact_refs d (Leaf (PRef g n) p)
| Ex_node g n nd kids : names d (g, n) n -> Forall (exact_refs d) kids -> exact_refs d (Node (PRef g n) nd kids).
Definition exact_root (d : doc) : Prop :=
  forall t g n, value d 0 = Ok (PDict t) -> dget K_Root t = Some (PRef g n) -> names d (g, n) n.

(* d is target with a copy of the objects of source but the catalog, renamed by f; only the
   object number root changes in what target had *)
Record joined (target source : doc) (f : ref -> ref) (root : Z) (d : doc) : Prop := {
  jo_editable : editable d;
  jo_old : forall row n, open_row target row -> 0 <= n < Z.of_nat (length row) -> n <> root -> value d n = value target n;
  jo_copy : forall c cat r n v, catalog_at source c cat -> names source r n -> n <> c -> value source n = Ok v ->
    exists k v', f r = (0, k) /\ (forall row, open_row target row -> Z.of_nat (length row) <= k) /\ carried f v v' /\ value d k = Ok v';
  jo_distinct : forall c cat r r' n n', catalog_at source c cat -> names source r n -> n <> c -> names source r' n' -> n' <> c -> f r = f r' -> r = r'
}.
(* the /Count of the root *)
Definition counted (t : ptree) (a : Z) : Prop := dget K_Count (tdict t) = Some (PInt a).
(* a page with its renamed reference and dictionary *)
Definition copy_of (f : ref -> ref) (x : leaf) (y : obj * dict) : Prop :=
  renamed f (leaf_ref x) (fst y) /\ renamed f (PDict (leaf_page x)) (PDict (snd y)).

End WithZlib.
