(* Specification vocabulary for PDF values, independent of the model's helpers.
   Characters classes and token shapes follow the PDF reference (ISO 32000, 7.2-7.3). *)
From Coq Require Import String.
From Verif Require Import PyBase Model_Filters Model_Objects.

Definition white (c : Z) : Prop := c = 0 \/ c = 9 \/ c = 10 \/ c = 12 \/ c = 13 \/ c = 32.
Definition delim (c : Z) : Prop :=
  c = 40 \/ c = 41 \/ c = 60 \/ c = 62 \/ c = 91 \/ c = 93 \/ c = 123 \/ c = 125 \/ c = 47 \/ c = 37.
Definition regular (c : Z) : Prop := 0 <= c < 128 /\ ~ white c /\ ~ delim c.
Definition letter (c : Z) : Prop := 65 <= c <= 90 \/ 97 <= c <= 122.
Definition decdigit (c : Z) : Prop := 48 <= c <= 57.
Definition hexdigit (c : Z) : Prop := decdigit c \/ 65 <= c <= 70 \/ 97 <= c <= 102.

(* p is a prefix of s *)
Definition prefix_of (p s : bytes) : Prop := exists r, s = p ++ r.
(* p occurs in s *)
Definition occurs (p s : bytes) : Prop := exists a b, s = a ++ p ++ b.

(* a name: '/' and regular characters *)
Definition name_tok (s : bytes) : Prop := exists r, s = 47 :: r /\ Forall regular r.
(* a keyword read as a value (null, for instance): it is neither a boolean nor the
   letter R of a reference, nor does it start like a stream *)
Definition keyword_tok (s : bytes) : Prop :=
  exists a r, s = a :: r /\ letter a /\ Forall regular r /\
    s <> B "true" /\ s <> B "false" /\ s <> B "R" /\ ~ prefix_of (B "stream") s.

(* body of a literal string: balanced parentheses, a backslash escapes a parenthesis;
   the sequence backslash backslash parenthesis is left out (see C07) *)
Inductive litbody : bytes -> Prop :=
| lb_nil : litbody []
| lb_char c s : c <> 40 -> c <> 41 -> c <> 92 -> litbody s -> litbody (c :: s)
| lb_bs c s : c <> 40 -> c <> 41 -> litbody (c :: s) -> litbody (92 :: c :: s)
| lb_esc c s : c = 40 \/ c = 41 -> litbody s -> litbody (92 :: c :: s)
| lb_par s1 s2 : litbody s1 -> litbody s2 -> litbody (40 :: s1 ++ 41 :: s2).
Definition lit_tok (s : bytes) : Prop := exists b, s = 40 :: b ++ [41] /\ litbody b.

(* a hexadecimal string *)
Definition hex_tok (s : bytes) : Prop :=
  exists b, s = 60 :: b ++ [62] /\ Forall (fun c => hexdigit c \/ white c) b.

(* what a literal string must avoid to survive inside an array or a dictionary of this
   library: doubled angle brackets; square brackets together with parentheses *)
Definition embeddable (s : bytes) : Prop :=
  ~ occurs [60; 60] s /\ ~ occurs [62; 62] s /\
  (Forall (fun c => c <> 91 /\ c <> 93) s \/
   exists b, s = 40 :: b ++ [41] /\ Forall (fun c => c <> 40 /\ c <> 41) b).

(* a decimal number m*10^e in normal form that Python prints with a decimal point *)
Definition real_ok (m e : Z) : Prop :=
  (m = 0 /\ e = 0) \/
  (m <> 0 /\ m mod 10 <> 0 /\
   exists n, 0 < n /\ 10 ^ (n - 1) <= Z.abs m < 10 ^ n /\ (-4 < n + e <= 16 \/ 1 < n)).

(* values that may occur inside a container; G limits the generations of references *)
Inductive wfx (G : Z -> Prop) : obj -> Prop :=
| wf_bool b : (wfx G) (PBool b)
| wf_int z : (wfx G) (PInt z)
| wf_real m e : real_ok m e -> (wfx G) (PReal m e)
| wf_name s : name_tok s -> (wfx G) (PStr s)
| wf_keyword s : keyword_tok s -> (wfx G) (PStr s)
| wf_lit s : lit_tok s -> embeddable s -> (wfx G) (PBytes s)
| wf_hex s : hex_tok s -> (wfx G) (PBytes s)
| wf_ref g n : G g -> (wfx G) (PRef g n)
| wf_list l : Forall (wfx G) l -> (wfx G) (PList l)
| wf_dict d : NoDup (map fst d) ->
    Forall (fun kv => name_tok (fst kv) /\ (wfx G) (snd kv)) d -> (wfx G) (PDict d).

Arguments wf_bool {G}.
Arguments wf_int {G}.
Arguments wf_real {G}.
Arguments wf_name {G}.
Arguments wf_keyword {G}.
Arguments wf_lit {G}.
Arguments wf_hex {G}.
Arguments wf_ref {G}.
Arguments wf_list {G}.
Arguments wf_dict {G}.
(* references of generation 0 only; references of any generation *)
Definition wfv : obj -> Prop := wfx (fun g => g = 0).
Definition wfg : obj -> Prop := wfx (fun _ => True).

(* the same value with every generation replaced by 0 *)
Fixpoint zero_gen (o : obj) : obj :=
  match o with
  | PRef _ n => PRef 0 n
  | PList l => PList (map zero_gen l)
  | PDict d => PDict (map (fun kv => match kv with (k, v) => (k, zero_gen v) end) d)
  | _ => o
  end.

(* values at the top level of an indirect object: a bare literal string has no
   restriction, a bare reference is excluded *)
Inductive wf_topx (G : Z -> Prop) : obj -> Prop :=
| wt_val o : wfx G o -> (forall g n, o <> PRef g n) -> wf_topx G o
| wt_lit s : lit_tok s -> wf_topx G (PBytes s).
Arguments wt_val {G}.
Arguments wt_lit {G}.
Definition wf_top : obj -> Prop := wf_topx (fun g => g = 0).
Definition wf_topg : obj -> Prop := wf_topx (fun _ => True).

(* Python equality of values: dictionaries are compared regardless of order *)
Inductive peq : obj -> obj -> Prop :=
| pq_none : peq PNone PNone
| pq_bool b : peq (PBool b) (PBool b)
| pq_int z : peq (PInt z) (PInt z)
| pq_real m e : peq (PReal m e) (PReal m e)
| pq_str s : peq (PStr s) (PStr s)
| pq_bytes s : peq (PBytes s) (PBytes s)
| pq_ref g n : peq (PRef g n) (PRef g n)
| pq_list l1 l2 : Forall2 peq l1 l2 -> peq (PList l1) (PList l2)
| pq_dict d1 d2 :
    (forall k, dget k d1 = None <-> dget k d2 = None) ->
    (forall k a b, dget k d1 = Some a -> dget k d2 = Some b -> peq a b) ->
    peq (PDict d1) (PDict d2)
| pq_stream d1 d2 s e :
    peq (PDict d1) (PDict d2) -> peq (PStream d1 s e) (PStream d2 s e).

(* the token type that announces a value; a reference is three tokens, a stream two *)
Definition kind_of (o : obj) : option tok :=
  match o with
  | PBool true => Some TTrue
  | PBool false => Some TFalse
  | PInt _ => Some TInteger
  | PReal _ _ => Some TReal
  | PStr (47 :: _) => Some TName
  | PStr _ => Some TKeyword
  | PBytes _ => Some TString
  | PList _ => Some TArray
  | PDict _ => Some TDict
  | _ => None
  end.
(* tokens with a closing delimiter: they may stand at the very end of a text *)
Definition closed (o : obj) : Prop :=
  match o with PBytes _ | PList _ | PDict _ => True | _ => False end.

(* what may follow a value in a file: white space, then a word or number that is not
   the keyword stream *)
Definition follows (tail : bytes) : Prop :=
  exists w x, tail = w ++ x /\ w <> [] /\ Forall white w /\
    (x = [] \/ exists c r, x = c :: r /\ (letter c \/ decdigit c) /\ ~ prefix_of (B "stream") x).

(* a dictionary as written in a file, from the names and the texts of the values *)
Definition pair_text (kt : bytes * bytes) : bytes := 32 :: fst kt ++ 32 :: snd kt.
Definition dict_text (l : list (bytes * bytes)) : bytes := [60; 60] ++ flat_map pair_text l ++ [32; 62; 62].

(* ---- literal strings of the PDF reference: any byte after a backslash is escaped,
   unescaped parentheses are balanced ---- *)
Inductive pdfbody : bytes -> Prop :=
| pb_nil : pdfbody []
| pb_char c s : c <> 40 -> c <> 41 -> c <> 92 -> pdfbody s -> pdfbody (c :: s)
| pb_esc c s : pdfbody s -> pdfbody (92 :: c :: s)
| pb_par s1 s2 : pdfbody s1 -> pdfbody s2 -> pdfbody (40 :: s1 ++ 41 :: s2).

(* ---- references inside a value ---- *)
Inductive ref_in (r : Z * Z) : obj -> Prop :=
| ri_here : ref_in r (PRef (fst r) (snd r))
| ri_list l o : In o l -> ref_in r o -> ref_in r (PList l)
| ri_dict d k o : In (k, o) d -> ref_in r o -> ref_in r (PDict d)
| ri_stream d s e k o : In (k, o) d -> ref_in r o -> ref_in r (PStream d s e).

(* o' is o where every reference r became f r, nothing else being changed *)
Inductive renamed (f : Z * Z -> Z * Z) : obj -> obj -> Prop :=
| rn_ref g n : renamed f (PRef g n) (PRef (fst (f (g, n))) (snd (f (g, n))))
| rn_list l l' : Forall2 (renamed f) l l' -> renamed f (PList l) (PList l')
| rn_dict d d' : Forall2 (fun kv kv' => fst kv = fst kv' /\ renamed f (snd kv) (snd kv')) d d' ->
    renamed f (PDict d) (PDict d')
| rn_stream d d' s e : Forall2 (fun kv kv' => fst kv = fst kv' /\ renamed f (snd kv) (snd kv')) d d' ->
    renamed f (PStream d s e) (PStream d' s e)
| rn_leaf o : match o with PRef _ _ | PList _ | PDict _ | PStream _ _ _ => False | _ => True end -> renamed f o o.

(* no stream inside *)
Inductive stream_free : obj -> Prop :=
| sf_list l : Forall stream_free l -> stream_free (PList l)
| sf_dict d : Forall (fun kv => stream_free (snd kv)) d -> stream_free (PDict d)
| sf_leaf o : match o with PList _ | PDict _ | PStream _ _ _ => False | _ => True end -> stream_free o.

(* ---- the numbers denoted by an xref /Index array (first, count), with the rank of
   the subsection ---- *)
Fixpoint index_numbers (sec : Z) (pairs : list (Z * Z)) : list (Z * Z) :=
  match pairs with
  | [] => []
  | (o, n) :: r => map (fun k => (o + Z.of_nat k, sec)) (seq 0 (Z.to_nat n)) ++ index_numbers (sec + 1) r
  end.
Definition index_array (pairs : list (Z * Z)) : list Z := flat_map (fun p => [fst p; snd p]) pairs.
