(* Specification vocabulary for page trees and for the operations on whole documents *)
From Coq Require Import String.
From Verif Require Import PyBase Model_Filters Model_Objects Model_Filestruct Model_Text Model_Docstruct Model_Api.
From Verif Require Import Spec_Objects Spec_Filestruct Spec_Docstruct.

Section WithZlib.
Context {ZL : Zlib}.

(* Documents whose objects can be edited one by one: no object streams, and for every
   number a cell with a version and a place in the cache *)
Definition editable (d : doc) : Prop :=
  plain d /\ (exists p, provider d p) /\ (exists row, open_row d row) /\
  forall row, open_row d row -> length (d_cache d) = length row /\
    forall n s, 0 < n -> cell row n s -> exists e, s = SDict e /\ n_over e <> None.
(* same content *)
Definition same_values (d d1 : doc) : Prop := forall n, 0 <= n -> value d1 n = value d n.

(* ---- slices ---- *)
Definition from_end (n x : Z) : Z := if x <? 0 then x + n else x.
(* the indexes of range(n)[start:stop:step] *)
Definition in_slice (n : Z) (start stop step : option Z) (j : Z) : Prop :=
  let s := match step with Some s => s | None => 1 end in
  0 <= j < n /\
  if 0 <? s then
    (match start with Some a => from_end n a <= j | None => True end) /\
    (match stop with Some b => j < from_end n b | None => True end) /\
    (j - match start with Some a => Z.max 0 (from_end n a) | None => 0 end) mod s = 0
  else
    (match start with Some a => j <= from_end n a | None => True end) /\
    (match stop with Some b => from_end n b < j | None => True end) /\
    (match start with Some a => Z.min (n - 1) (from_end n a) | None => n - 1 end - j) mod (- s) = 0.
Definition selects (n : Z) (k : pykey) (j : Z) : Prop :=
  match k with KInt i => n <> 0 /\ j = i mod n | KSlice a b s => in_slice n a b s j end.

(* ---- versions: strings in lexicographic order ---- *)
Definition sooner (a b : bytes) : Prop :=
  (exists x l, b = a ++ x :: l) \/ (exists p x y a' b', a = p ++ x :: a' /\ b = p ++ y :: b' /\ x < y).
Definition greatest (l : list bytes) (m : bytes) : Prop := In m l /\ forall x, In x l -> ~ sooner m x.

(* ---- the catalog and the root of the page tree ---- *)
Definition points_at (d : doc) (o : obj) (n : Z) (v : obj) : Prop :=
  exists g, o = PRef g n /\ 0 < n /\ value d n = Ok v.
Definition catalog_at (d : doc) (n : Z) (c : dict) : Prop :=
  exists t r, value d 0 = Ok (PDict t) /\ dget K_Root t = Some r /\ points_at d r n (PDict c).

(* ---- references reachable without /Parent and /P ---- *)
Inductive follows (d : doc) : obj -> obj -> Prop :=
| Fo_dict x k v : In (k, v) x -> k <> K_Parent -> k <> K_P -> follows d (PDict x) v
| Fo_list l v : In v l -> follows d (PList l) v
| Fo_ref g n v : 0 <= n -> value d n = Ok v -> follows d (PRef g n) v.
Inductive reaches (d : doc) : obj -> ref -> Prop :=
| Re_here g n : reaches d (PRef g n) (g, n)
| Re_next o o' r : follows d o o' -> reaches d o' r -> reaches d o r.
(* every reference that is met has an object *)
Definition resolved (d : doc) (o : obj) : Prop :=
  forall g n, reaches d o (g, n) -> 0 <= n /\ exists v, value d n = Ok v.

(* ---- page trees ---- *)
Inductive ptree := Leaf (o : obj) (page : dict) | Node (o : obj) (node : dict) (kids : list ptree).
Definition tref (t : ptree) : obj := match t with Leaf o _ => o | Node o _ _ => o end.
Definition tnum (t : ptree) : Z := match tref t with PRef _ n => n | _ => 0 end.
Inductive holds (d : doc) : ptree -> Prop :=
| Ho_leaf o n p : points_at d o n (PDict p) -> dget K_Type p = Some (PStr K_Page) -> holds d (Leaf o p)
| Ho_node o n nd kids : points_at d o n (PDict nd) -> dget K_Type nd = Some (PStr K_Pages) ->
    dget K_Kids nd = Some (PList (map tref kids)) -> Forall (holds d) kids -> holds d (Node o nd kids).
(* the document has this page tree *)
Definition has_tree (d : doc) (t : ptree) : Prop :=
  exists c cat, catalog_at d c cat /\ dget K_Type cat <> Some (PStr K_Page) /\ dget K_Type cat <> Some (PStr K_Pages) /\
    dget K_Pages cat = Some (tref t) /\ holds d t /\ exists o nd kids, t = Node o nd kids.
(* the leaves from left to right, each with its page dictionary and its ancestors, the
   nearest first *)
Definition leaf := (obj * dict * list dict)%type.
Definition leaf_ref (x : leaf) : obj := fst (fst x).
Definition leaf_page (x : leaf) : dict := snd (fst x).
Definition leaf_num (x : leaf) : Z := match leaf_ref x with PRef _ n => n | _ => 0 end.
Fixpoint leaves (t : ptree) : list leaf :=
  match t with
  | Leaf o p => [(o, p, [])]
  | Node _ nd kids => flat_map (fun k => map (fun x => (fst x, snd x ++ [nd])) (leaves k)) kids
  end.
Fixpoint depth (t : ptree) : nat :=
  match t with Leaf _ _ => 0 | Node _ _ kids => S (fold_right (fun k m => Nat.max (depth k) m) 0 kids) end%nat.
Definition inheritable_key (k : bytes) : Prop := k = K_Resources \/ k = K_MediaBox \/ k = K_CropBox \/ k = K_Rotate.
(* the value of an attribute in the nearest ancestor that has one *)
Inductive nearest (k : bytes) : list dict -> option obj -> Prop :=
| Ne_none : nearest k [] None
| Ne_here nd l v : dget k nd = Some v -> v <> PNone -> nearest k (nd :: l) (Some v)
| Ne_next nd l r : dget k nd = None \/ dget k nd = Some PNone -> nearest k l r -> nearest k (nd :: l) r.
(* the attribute a leaf inherits; base: what the dictionary of attributes held at first *)
Inductive inherited (base : dict) (x : leaf) (k : bytes) : option obj -> Prop :=
| In_near v : inheritable_key k -> nearest k (snd x) (Some v) -> inherited base x k (Some v)
| In_base : (inheritable_key k -> nearest k (snd x) None) -> inherited base x k (dget k base).
(* the attribute of a page, its own or the one it inherits *)
Inductive attribute (base : dict) (x : leaf) (k : bytes) : option obj -> Prop :=
| At_own v : dget k (leaf_page x) = Some v -> attribute base x k (Some v)
| At_up r : dget k (leaf_page x) = None -> inherited base x k r -> attribute base x k r.

(* ---- rotations ---- *)
Definition selected (pgs : list Z) (i : nat) : Prop := pgs = [] \/ In (Z.of_nat i) pgs.
(* the angle of a page: an integer, or 0 when there is none *)
Inductive turned (base : dict) (x : leaf) : Z -> Prop :=
| Tu_int z : attribute base x K_Rotate (Some (PInt z)) -> turned base x z
| Tu_none : attribute base x K_Rotate None -> turned base x 0
| Tu_null v : attribute base x K_Rotate (Some v) -> obj_truthy v = false -> turned base x 0.

(* every page has a media box and every selected one an angle *)
Definition rotatable (base : dict) (t : ptree) (pgs : list Z) : Prop :=
  (forall x, In x (leaves t) -> exists m, attribute base x K_MediaBox (Some m)) /\
  forall i x, nth_error (leaves t) i = Some x -> selected pgs i -> exists z, turned base x z.
(* the selected pages are turned, nothing else changes *)
Record turned_doc (base : dict) (t : ptree) (pgs : list Z) (a : Z) (d d1 : doc) : Prop := {
  td_editable : editable d1;
  td_data : d_data d1 = d_data d;
  td_sel : forall i x, nth_error (leaves t) i = Some x -> selected pgs i ->
    exists z, turned base x z /\ value d1 (leaf_num x) = Ok (PDict (dset K_Rotate (PInt ((z + a) mod 360)) (leaf_page x)));
  td_other : forall n, 0 <= n -> (forall i x, nth_error (leaves t) i = Some x -> selected pgs i -> leaf_num x <> n) -> value d1 n = value d n
}.


(* ---- well-formed trees: /Count is the number of leaves, /Parent the node above ---- *)
Definition tdict (t : ptree) : dict := match t with Leaf _ p => p | Node _ nd _ => nd end.
Definition child_of (n : Z) (t : ptree) : Prop := exists g, dget K_Parent (tdict t) = Some (PRef g n).
Inductive sound : ptree -> Prop :=
| So_leaf o p : sound (Leaf o p)
| So_node o nd kids : dget K_Count nd = Some (PInt (Z.of_nat (length (leaves (Node o nd kids))))) ->
    Forall (child_of (tnum (Node o nd kids))) kids -> Forall sound kids -> sound (Node o nd kids).
(* the numbers of the inner nodes *)
Fixpoint node_nums (t : ptree) : list Z :=
  match t with Leaf _ _ => [] | Node _ _ kids => tnum t :: flat_map node_nums kids end.
Definition well_formed (d : doc) (t : ptree) : Prop :=
  has_tree d t /\ sound t /\ dget K_Parent (tdict t) = None /\ NoDup (map leaf_num (leaves t)) /\ NoDup (node_nums t).
(* what can be reached from the pages does not lead back to the tree, but through /Parent and
   /P; the pages that are reached are referred to as in the tree *)
Definition tidy (d : doc) (t : ptree) : Prop :=
  forall x g n, In x (leaves t) -> reaches d (leaf_ref x) (g, n) ->
    0 < n /\ ~ In n (node_nums t) /\ (forall c cat, catalog_at d c cat -> n <> c) /\
    forall y, In y (leaves t) -> leaf_num y = n -> leaf_ref y = PRef g n.
(* position i of a list of length n is in a list of Python indexes *)
Definition indexed (n : nat) (l : list Z) (i : nat) : Prop :=
  exists z, In z l /\ (z = Z.of_nat i \/ z = Z.of_nat i - Z.of_nat n).
(* keep some elements of a list, by position *)
Inductive kept {A} (P : nat -> Prop) : nat -> list A -> list A -> Prop :=
| Ke_nil i : kept P i [] []
| Ke_keep i x l m : P i -> kept P (S i) l m -> kept P i (x :: l) (x :: m)
| Ke_drop i x l m : ~ P i -> kept P (S i) l m -> kept P i (x :: l) m.

(* the leaves that a list of Python indexes designates *)
Definition picks (t : ptree) (l : list Z) (x : leaf) : Prop :=
  exists i, nth_error (leaves t) i = Some x /\ indexed (length (leaves t)) l i.
(* the objects reached from these leaves and from no other *)
Definition doomed (d : doc) (t : ptree) (l : list Z) (n : Z) : Prop :=
  exists g x, picks t l x /\ reaches d (leaf_ref x) (g, n) /\
    forall y, In y (leaves t) -> ~ picks t l y -> ~ reaches d (leaf_ref y) (g, n).
(* from d with the page tree t, the leaves designated by l are taken away: the others stay, in
   the same order, with their dictionaries and what they inherit; the new tree is well-formed;
   the objects reached from the removed leaves only are deleted, and nothing else changes but
   the /Kids and the /Count of the nodes of the tree *)
Record pages_removed (d : doc) (t : ptree) (l : list Z) (d' : doc) (t' : ptree) : Prop := {
  pr_editable : editable d';
  pr_tree : well_formed d' t';
  pr_kept : kept (fun i => ~ indexed (length (leaves t)) l i) 0 (map fst (leaves t)) (map fst (leaves t'));
  pr_inherit : forall x', In x' (leaves t') -> exists x, In x (leaves t) /\ fst x = fst x' /\
    forall base k r, attribute base x' k r <-> attribute base x k r;
  pr_nodes : node_nums t' = node_nums t;
  pr_node : forall n nd, In n (node_nums t) -> value d n = Ok (PDict nd) -> exists nd', value d' n = Ok (PDict nd') /\
    forall k, k <> K_Kids -> k <> K_Count -> dget k nd' = dget k nd;
  pr_deleted : forall n, doomed d t l n -> value d' n = Ok PNone;
  pr_other : forall n, 0 <= n -> ~ In n (node_nums t) -> ~ doomed d t l n -> value d' n = value d n
}.

(* the objects that the pages refer to are there, without a cycle *)
Definition sane (d : doc) (t : ptree) : Prop :=
  forall x, In x (leaves t) -> Acc (fun b a => follows d a b) (leaf_ref x) /\ resolved d (leaf_ref x).

(* an entry of the list of pages; the view of a page *)
Definition entry_of (base : dict) (p : obj * dict) (x : leaf) : Prop :=
  fst p = leaf_ref x /\ forall k r, inherited base x k r <-> r = dget k (snd p).
Definition view_of (base : dict) (p : dict) (x : leaf) : Prop := forall k r, attribute base x k r <-> r = dget k p.

End WithZlib.
