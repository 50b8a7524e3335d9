(* Specification vocabulary for the calls of the api that read or edit a document:
   streams, filters, annotations, page contents, metadata, new documents *)
From Coq Require Import String Sorted.
From Verif Require Import PyBase Model_Filters Model_Objects Model_Filestruct Model_Text Model_Docstruct Model_Api.
From Verif Require Import Spec_Objects Spec_Filestruct Spec_Docstruct Spec_Pages Spec_Squash.

(* ---- paper sizes: quarter inches or millimetres, and the nearest number of points ---- *)
Definition in_quarters : list (bytes * (Z * Z)) :=
  [(B "US Tabloid", (44, 68)); (B "US Legal", (34, 56)); (B "US Letter", (34, 44))].
Definition in_millimetres : list (bytes * (Z * Z)) :=
  [(B "A0", (841, 1189)); (B "A1", (594, 841)); (B "A2", (420, 594)); (B "A3", (297, 420)); (B "A4", (210, 297));
   (B "A5", (148, 210)); (B "A6", (105, 148)); (B "A7", (74, 105)); (B "A8", (52, 74)); (B "A9", (37, 52)); (B "A10", (26, 37))].
(* 72 points are 1 inch or 25.4 mm *)
Definition millimetres (mm pt : Z) : Prop := 2 * Z.abs (254 * pt - 720 * mm) < 254.
Definition paper_of (name : bytes) (w h : Z) : Prop :=
  (exists a b, In (name, (a, b)) in_quarters /\ w = 18 * a /\ h = 18 * b) \/
  (exists a b, In (name, (a, b)) in_millimetres /\ millimetres a w /\ millimetres b h).

Section WithZlib.
Context {ZL : Zlib}.

(* ---- streams ---- *)
(* the numbers of the objects in use that are streams, in increasing order *)
Definition stream_numbers (d : doc) (l : list Z) : Prop :=
  StronglySorted Z.lt l /\
  forall n, In n l <-> (exists r, names d r n) /\ exists x c e, value d n = Ok (PStream x c e).
Definition readable (d : doc) : Prop := forall r n, names d r n -> exists v, value d n = Ok v.

(* ---- filters ---- *)
Definition supported (f : bytes) : Prop := f = B "/FlateDecode" \/ f = B "/ASCIIHexDecode" \/ f = B "/ASCII85Decode".
(* a stream with one filter or none, without parameters *)
Definition simple_stream (v : obj) (x : dict) (c : bytes) : Prop :=
  (exists e, v = PStream x (Some c) e) /\ Forall (fun z => 0 <= z < 256) c /\ dget (B "/DecodeParms") x = None /\
  (dget (B "/Filter") x = None \/ exists f, dget (B "/Filter") x = Some (PStr f)).
(* v': the stream v with the filter flt, or without a filter when flt is empty *)
Definition refiltered (flt : bytes) (v v' : obj) : Prop :=
  exists x c, simple_stream v x c /\
  (v' = v /\ dget (B "/Filter") x = Some (PStr flt) \/
   exists x' e', v' = PStream x' (Some c) (Some e') /\
     dget (B "/Filter") x' = (match flt with [] => None | _ => Some (PStr flt) end) /\
     (forall k, k <> B "/Filter" -> k <> B "/Length" -> dget k x' = dget k x) /\
     decode_stream (Some e') x' = Ok (Some c)).

(* ---- pages ---- *)
(* the element at index i, which may be counted from the end *)
Definition at_index {A} (l : list A) (i : Z) (x : A) : Prop :=
  exists j, nth_error l j = Some x /\ (i = Z.of_nat j \/ i = Z.of_nat j - Z.of_nat (length l)).
(* what an object stands for *)
Inductive deref (d : doc) : obj -> obj -> Prop :=
| De_ref g n v : 0 <= n -> value d n = Ok v -> deref d (PRef g n) v
| De_val v : (forall g n, v <> PRef g n) -> deref d v v.

(* ---- the first m pages ---- *)
(* no node is cut after the first page of its parent and before its own last one *)
Inductive fits (m : nat) : ptree -> Prop :=
| Fi_leaf o p : fits m (Leaf o p)
| Fi_node o nd kids : Forall (fits m) kids ->
    (forall pre k post, kids = pre ++ k :: post -> let c := length (flat_map leaves pre) in
       c = O \/ (m <= c)%nat \/ (c + length (leaves k) <= m)%nat) -> fits m (Node o nd kids).

(* ---- annotations ---- *)
Definition is_annotation (o : obj) (text : bytes) (rect : list obj) (opened : bool) : Prop :=
  exists a, o = PDict a /\ dget (B "/Type") a = Some (PStr (B "/Annot")) /\ dget (B "/Subtype") a = Some (PStr (B "/Text")) /\
    dget (B "/Rect") a = Some (PList rect) /\ dget (B "/Contents") a = Some (PStr (B "(" ++ text ++ B ")")) /\
    dget (B "/Open") a = Some (PBool opened).
(* the annotations of a page, in an indirect array *)
Definition annots (d : doc) (p : dict) (l : list obj) : Prop :=
  dget (B "/Annots") p = None /\ l = [] \/
  exists r n, dget (B "/Annots") p = Some r /\ points_at d r n (PList l).
(* page x has one annotation more, nothing else changes *)
Record annotated (d d1 : doc) (x : leaf) (l : list obj) (text : bytes) (rect : list obj) (opened : bool) : Prop := {
  an_new : exists a o p, (forall row, open_row d row -> Z.of_nat (length row) <= a) /\ value d1 a = Ok o /\ is_annotation o text rect opened /\
    value d1 (leaf_num x) = Ok (PDict p) /\ annots d1 p (l ++ [PRef 0 a]) /\
    (forall k, k <> B "/Annots" -> dget k p = dget k (leaf_page x));
  an_other : forall k row, 0 <= k -> open_row d row -> k < Z.of_nat (length row) -> k <> leaf_num x ->
    (forall g, dget (B "/Annots") (leaf_page x) <> Some (PRef g k)) -> value d1 k = value d k;
  an_editable : editable d1
}.

(* ---- the contents of a page ---- *)
Inductive parts (d : doc) (o : obj) : list obj -> Prop :=
| Pa_list l m : deref d o (PList l) -> Forall2 (deref d) l m -> parts d o m
| Pa_one v w : deref d o v -> (forall l, v <> PList l) -> deref d v w -> parts d o [w].
Definition page_contents (d : doc) (p : dict) (l : list obj) : Prop :=
  exists items ps, Forall2 (parts d) items ps /\ l = concat ps /\
    (dget (B "/Contents") p = Some (PList items) \/ exists g n, dget (B "/Contents") p = Some (PRef g n) /\ items = [PRef g n]).

(* ---- metadata ---- *)
Definition info_keys : list bytes :=
  [B "Title"; B "Author"; B "Subject"; B "Keywords"; B "Creator"; B "Producer"; B "CreationDate"; B "ModDate"].
(* the document information dictionary; no dictionary is an empty one *)
Definition info_at (d : doc) (i : dict) : Prop :=
  exists t, value d 0 = Ok (PDict t) /\
    (dget (B "/Info") t = None /\ i = [] \/ exists r n, dget (B "/Info") t = Some r /\ points_at d r n (PDict i)).
(* the text of an entry; an entry without text has none *)
Inductive info_text (d : doc) (i : dict) (k : bytes) : option bytes -> Prop :=
| It_none : dget (B "/" ++ k) i = None -> info_text d i k None
| It_null o : dget (B "/" ++ k) i = Some o -> deref d o PNone -> info_text d i k None
| It_empty o s : dget (B "/" ++ k) i = Some o -> deref d o (PBytes s) -> text_string s = Ok [] -> info_text d i k None
| It_text o s t : dget (B "/" ++ k) i = Some o -> deref d o (PBytes s) -> text_string s = Ok t -> t <> [] -> info_text d i k (Some t).

(* ---- a new document: one page of the given size ---- *)
Definition one_page (d : doc) (w h : Z) : Prop :=
  exists o nd o' p, has_tree d (Node o nd [Leaf o' p]) /\ dget (B "/Count") nd = Some (PInt 1) /\
    dget (B "/Parent") p = Some o /\ dget (B "/MediaBox") p = Some (PList [PInt 0; PInt 0; PInt w; PInt h]).

End WithZlib.
