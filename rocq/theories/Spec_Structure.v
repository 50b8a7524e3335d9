(* Specification vocabulary for the description of a document and for hybrid-reference files *)
From Coq Require Import String QArith Qcanon.
From Verif Require Import PyBase Model_Filters Model_Objects Model_Filestruct Model_Text Model_Docstruct Model_Api Model_Graphics.
From Verif Require Import Spec_Objects Spec_Filestruct Spec_Docstruct Spec_Pages Spec_Calls.
Open Scope Z_scope.

(* ---- the version: the greatest of the one of the header and the one of the catalog ---- *)
Definition declared (header : bytes) (cat : dict) (l : list bytes) : Prop :=
  (dget (B "/Version") cat = None /\ l = [header]) \/
  (exists v, dget (B "/Version") cat = Some (PStr (47 :: v)) /\ l = [header; v]).
(* ---- the first document of the data: a file with this header ---- *)
Definition headed (d : doc) (h : bytes) (F : bytes) : Prop :=
  length h = 3%nat /\ Forall (fun c => 0 <= c < 128) h /\ (exists r, F = B "%PDF-" ++ h ++ r) /\
  exists dt l, d_data d = dt :: l /\ dt_fdata dt = Some (PvSingle F).
(* ---- encryption: the trailer has an encryption dictionary, direct or not ---- *)
Definition protected (t : dict) : Prop :=
  (exists g n, dget (B "/Encrypt") t = Some (PRef g n) /\ 0 < n) \/
  (exists x y, dget (B "/Encrypt") t = Some (PDict (x :: y))).
Definition unprotected (t : dict) : Prop := dget (B "/Encrypt") t = None.
(* ---- paper: the name of a standard paper with these sides ---- *)
Definition named_paper (x y : Qc) (k : bytes) : Prop :=
  (exists w h, paper_of k w h /\ x = qc w /\ y = qc h) \/
  (k = B "unknown" /\ forall name w h, paper_of name w h -> ~ (x = qc w /\ y = qc h)).
(* the millimetres of a length in points (one inch is 25.4 mm and 72 points), without decimals *)
Definition whole_mm (x : Qc) (n : Z) : Prop :=
  (0 <= x /\ inject_Z n <= x * (127 # 360) /\ x * (127 # 360) < inject_Z (n + 1))%Q \/
  (x < 0 /\ inject_Z (n - 1) < x * (127 # 360) /\ x * (127 # 360) <= inject_Z n)%Q.
(* the inches, to the nearest hundredth *)
Record nearest_hundredth (x : Qc) (h : Z) : Prop := mk_nearest {
  nh_low : (inject_Z h - (1 # 2) <= x * (100 # 72))%Q;
  nh_high : (x * (100 # 72) <= inject_Z h + (1 # 2))%Q;
  nh_tie : (x * (100 # 72) == inject_Z h + (1 # 2) \/ x * (100 # 72) == inject_Z h - (1 # 2))%Q -> Z.even h = true
}.
(* a number of hundredths with one decimal, or two when they are needed *)
Inductive hundredths_text : Z -> bytes -> Prop :=
| Ht_one q a : 0 <= q -> 0 <= a < 10 -> hundredths_text (100 * q + 10 * a) (dec q ++ [46; 48 + a])
| Ht_two q a b : 0 <= q -> 0 <= a < 10 -> 0 < b < 10 -> hundredths_text (100 * q + 10 * a + b) (dec q ++ [46; 48 + a; 48 + b])
| Ht_neg h t : 0 < h -> hundredths_text h t -> hundredths_text (- h) (45 :: t).
Definition inches (x : Qc) (t : bytes) : Prop := exists h, nearest_hundredth x h /\ hundredths_text h t.
(* the description of a paper: its sides and its name *)
Definition paper_text (x y : Qc) (t : bytes) : Prop :=
  exists mx my ix iy k, whole_mm x mx /\ whole_mm y my /\ inches x ix /\ inches y iy /\ named_paper x y k /\
    t = dec mx ++ B "x" ++ dec my ++ B "mm or " ++ ix ++ B "x" ++ iy ++ B "in (" ++ k ++ B ")".
(* a box given by the coordinates of two corners *)
Definition sides (m : obj) (x y : Qc) : Prop :=
  exists a b c e qa qb qcc qe, m = PList [a; b; c; e] /\ num_of a = Ok qa /\ num_of b = Ok qb /\
    num_of c = Ok qcc /\ num_of e = Ok qe /\ x = (qcc - qa)%Qc /\ y = (qe - qb)%Qc.

(* the second row of the index is that of a section with a table and a stream *)
Inductive marked (d : doc) : bool -> Prop :=
| mk_alone : (length (d_index d) <= 1)%nat -> marked d false
| mk_second r0 row rest e : d_index d = r0 :: row :: rest -> cell row 0 (SDict e) -> marked d (n_stm e).

(* ---- hybrid-reference files (7.5.8.4).  Sections, the oldest first; a section is its trailer
   followed by the entries in use.  The stream named by /XRefStm comes just before its table:
   an object is looked for in the table, then in the stream ---- *)
Definition defines (l : list ient) (n : Z) : bool := existsb (fun e => n_num e =? n) l.
Definition combined (table stream : list ient) : list ient :=
  filter (fun e => 0 <? n_num e) table ++ filter (fun e => negb ((0 <? n_num e) && defines table (n_num e))) stream.
Inductive sections : list (list ient) -> list (list ient) -> Prop :=
| Se_nil : sections [] []
| Se_plain t es r m : n_stm t = false -> sections r m -> sections ((t :: es) :: r) ((t :: es) :: m)
| Se_pair xt xes t tes r m : n_stm xt = false -> n_stm t = true -> sections r m ->
    sections ((xt :: xes) :: (t :: tes) :: r) ((with_pos (n_pos t) (with_stm true xt) :: combined tes xes) :: m).
(* the stream of a hybrid section has all the entries of the table *)
Inductive repeated : list (list ient) -> Prop :=
| Rp_nil : repeated []
| Rp_plain t es r : n_stm t = false -> repeated r -> repeated ((t :: es) :: r)
| Rp_pair xt xes t tes r : n_stm xt = false -> n_stm t = true ->
    (forall e, In e tes -> 0 < n_num e -> filter (fun x => n_num x =? n_num e) tes = [e] /\ filter (fun x => n_num x =? n_num e) xes = [e]) ->
    repeated r -> repeated ((xt :: xes) :: (t :: tes) :: r).
(* positions of the sections *)
Fixpoint ascending (prev : Z) (secs : list (list ient)) : Prop :=
  match secs with
  | [] => True
  | s :: r => exists t es p, s = t :: es /\ n_pos t = Some (AInt p) /\ prev < p /\ ascending p r
  end.
