(* Specification vocabulary for the iteration over a document and the texts that describe it *)
From Coq Require Import String.
From Verif Require Import PyBase Model_Filters Model_Objects Model_Filestruct Model_Text Model_Docstruct Model_Api Model_Print.
From Verif Require Import Spec_Objects Spec_Filestruct Spec_Docstruct Spec_Pages.

Section WithZlib.
Context {ZL : Zlib}.

(* ---- for x in doc ---- *)
Inductive yields (ord : list ref -> list ref) (fuel : nat) : dict -> iterator -> list doc -> Prop :=
| Yi_stop leak it leak' it' : iter_next ord fuel leak it = Ok (None, leak', it') -> yields ord fuel leak it []
| Yi_next leak it d leak1 it1 l : iter_next ord fuel leak it = Ok (Some d, leak1, it1) -> yields ord fuel leak1 it1 l ->
    yields ord fuel leak it (d :: l).
(* d' is d without its pages, but the one of position i *)
Definition only_page (d : doc) (t : ptree) (i : nat) (d' : doc) : Prop :=
  exists t' x l, nth_error (leaves t) i = Some x /\ (forall j, In j l <-> 0 <= j < Z.of_nat (length (leaves t)) /\ j <> Z.of_nat i) /\
    pages_removed d t l d' t' /\ map fst (leaves t') = [fst x].

(* ---- the cells of the cache ---- *)
Definition mark_of (a : action) : Z := match a with Add => 97 | Upd => 117 | Del => 100 end.
(* the mark of cell i, which holds o: the change of the object, a dash when nothing was read *)
Inductive cell_mark (chg : list change) (i : Z) (o : obj) : Z -> Prop :=
| Cm_changed g a : In ((g, i), a) chg -> cell_mark chg i o (mark_of a)
| Cm_empty : (forall g a, ~ In ((g, i), a) chg) -> o = PNone -> cell_mark chg i o 45
| Cm_read : (forall g a, ~ In ((g, i), a) chg) -> o <> PNone -> cell_mark chg i o 120.
(* rows of ten marks, numbered from k; only the last one can be shorter *)
Inductive ten_rows : Z -> list Z -> bytes -> Prop :=
| Te_nil k : ten_rows k [] []
| Te_row k lab a r t : (length a = 10 \/ (0 < length a < 10)%nat /\ r = [])%nat -> (exists w, lab = repeat 32 w ++ dec k /\ w = (4 - length (dec k))%nat) ->
    ten_rows (k + 1) r t -> ten_rows k (a ++ r) (lab ++ [95; 32] ++ a ++ [10] ++ t).

(* ---- the history of the data ---- *)
Inductive data_size : prov -> Z -> Prop :=
| Ds_single b : data_size (PvSingle b) (blen b)
| Ds_cont b : data_size (PvCont b) (blen b)
| Ds_merge p i b : data_size (PvMerge p i b) (i + blen b).
Definition blank_or (o : option Z) (t : bytes) : Prop :=
  match o with Some n => n <> 0 /\ t = dec n \/ n = 0 /\ t = B "None" | None => t = B "None" end.
Record shown_datum (x y : datum) (h : bytes * bytes * bytes * bytes) : Prop := mk_shown_datum {
  sd_size : exists p n, dt_fdata x = Some p /\ data_size p n /\ snd (fst (fst h)) = dec n;
  sd_kind : exists p, dt_fdata x = Some p /\
    match p with PvMerge _ _ _ => fst (fst (fst h)) = B "composite" | PvSingle _ => fst (fst (fst h)) = B "single" | PvCont _ => fst (fst (fst h)) = B "continuous" | PvDummy _ => False end;
  sd_add : blank_or (option_map (fun b => Z.of_nat (length b)) (dt_bdata x)) (snd (fst h));
  sd_cut : blank_or (dt_cut y) (snd h)
}.
(* a line: its name on ten columns, then a cell of ten columns or more for each element *)
Definition wide (s : bytes) : bytes := s ++ repeat 32 (10 - length s).
Fixpoint bars (l : list bytes) : bytes := match l with [] => [10] | s :: r => [124; 32] ++ wide s ++ [32] ++ bars r end.

(* ---- the page tree ---- *)
Section Show.
Context (show : obj -> bytes).
Fixpoint tree_text (level : nat) (n : Z) (t : ptree) : bytes :=
  match t with
  | Leaf o p => repeat 32 (4 * level) ++ B " /Page [" ++ dec n ++ B "] at " ++ show o ++ B " with content(s) at " ++
      show (match dget (B "/Contents") p with Some c => c | None => PNone end) ++ [10]
  | Node o _ kids => repeat 32 (4 * level) ++ B " /Pages node at " ++ show o ++ B ", kids count = " ++ dec (Z.of_nat (length kids)) ++ B ":" ++ [10] ++
      (fix all (n : Z) (l : list ptree) : bytes :=
         match l with [] => [] | k :: r => tree_text (S level) n k ++ all (n + Z.of_nat (length (leaves k))) r end) n kids
  end.
End Show.

End WithZlib.
