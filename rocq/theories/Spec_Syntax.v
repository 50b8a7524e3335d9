(* The syntax of PDF objects as any program may write them (ISO 32000, 7.2 and 7.3):
   white space and comments between tokens, or nothing where a delimiter separates them. *)
From Coq Require Import String.
From Verif Require Import PyBase Model_Filters Model_Objects Spec_Objects.

(* white space and comments.  A comment runs to the end of the line; comments holding
   brackets, parentheses or angle brackets are left out (see C99) *)
Inductive gap : bytes -> Prop :=
| gap_nil : gap []
| gap_white c s : white c -> gap s -> gap (c :: s)
| gap_comment txt c s : Forall (fun x => ~ In x (B "()<>[]") /\ x <> 10 /\ x <> 13) txt -> c = 10 \/ c = 13 ->
    gap s -> gap (37 :: txt ++ c :: s).

(* the number that decimal digits denote *)
Definition decimal (ds : bytes) : Z := fold_left (fun a c => 10 * a + (c - 48)) ds 0.
(* an optional sign *)
Inductive sign : Z -> bytes -> Prop :=
| sign_none : sign 1 []
| sign_plus : sign 1 [43]
| sign_minus : sign (-1) [45].
(* an integer; leading zeros are allowed *)
Definition int_text (z : Z) (s : bytes) : Prop :=
  exists sg t ds, s = t ++ ds /\ sign sg t /\ ds <> [] /\ Forall decdigit ds /\ z = sg * decimal ds.
(* a real number, digits being optional on one side of the point.  The value m*10^e is in
   normal form: 0, or m does not end with 0 *)
Definition real_text (m e : Z) (s : bytes) : Prop :=
  exists sg t ip fp k, s = t ++ ip ++ [46] ++ fp /\ sign sg t /\ ip ++ fp <> [] /\ Forall decdigit (ip ++ fp) /\
    0 <= k /\ e = k - Z.of_nat (length fp) /\ sg * decimal (ip ++ fp) = m * 10 ^ k /\
    ((m = 0 /\ e = 0) \/ m mod 10 <> 0).

(* names, words and strings are kept by the library as they are written.  The word
   "elements isd l s": s is the text between the brackets of an array, or (isd) of a
   dictionary, holding the values l. *)
Inductive spelled : obj -> bytes -> Prop :=
| sp_true : spelled (PBool true) (B "true")
| sp_false : spelled (PBool false) (B "false")
| sp_int z s : int_text z s -> spelled (PInt z) s
| sp_real m e s : real_text m e s -> spelled (PReal m e) s
| sp_name s : name_tok s -> spelled (PStr s) s
| sp_keyword s : keyword_tok s -> spelled (PStr s) s
| sp_lit s : lit_tok s -> embeddable s -> spelled (PBytes s) s
| sp_hex s : hex_tok s -> spelled (PBytes s) s
| sp_ref n g1 g2 a z : a <> [] -> Forall decdigit a -> n = decimal a -> z <> [] -> Forall (fun c => c = 48) z ->
    gap g1 -> g1 <> [] -> gap g2 -> g2 <> [] -> spelled (PRef 0 n) (a ++ g1 ++ z ++ g2 ++ B "R")
| sp_array l s : elements false l s -> spelled (PList l) (B "[" ++ s ++ B "]")
| sp_dict d s : NoDup (map fst d) -> Forall name_tok (map fst d) ->
    elements true (flat_map (fun kv => [PStr (fst kv); snd kv]) d) s -> spelled (PDict d) (B "<<" ++ s ++ B ">>")
with elements : bool -> list obj -> bytes -> Prop :=
| el_end isd g : gap g -> elements isd [] g
| el_cons isd g v o l s : gap g -> spelled o v -> elements isd l s ->
    (* the token is followed by a separator, or closes itself *)
    closed o \/ s = [] \/ (exists c r, s = c :: r /\ (white c \/ delim c)) ->
    (* left out: a hexadecimal string directly before the closing angle brackets *)
    (isd = true -> hex_tok v -> s <> []) ->
    elements isd (o :: l) (g ++ v ++ s).

(* what follows the object in the buffer: it starts with a separator unless the object
   closes itself; after white space and comments comes the end, a word or a number, but
   not the word stream *)
Definition apart (o : obj) (tail : bytes) : Prop :=
  (closed o \/ exists c r, tail = c :: r /\ (white c \/ delim c)) /\
  exists g x, tail = g ++ x /\ gap g /\
    (x = [] \/ exists c r, x = c :: r /\ (letter c \/ decdigit c) /\ ~ prefix_of (B "stream") x).

Section WithZlib.
Context {ZL : Zlib}.

(* the end of line between the data of a stream and the word endstream; the data must not
   end by what would be taken for a part of it *)
Definition data_end (enc e : bytes) : Prop :=
  e = [13; 10] \/ e = [13] \/ (e = [10] /\ last enc 0 <> 13) \/ (e = [] /\ last enc 0 <> 10 /\ last enc 0 <> 13).
(* the content of an indirect object: a string, another object, or a stream with its
   decoded and encoded data *)
Inductive content : obj -> bytes -> Prop :=
| co_plain o s : spelled o s -> (forall g n, o <> PRef g n) -> content o s
| co_string s : lit_tok s -> content (PBytes s) s
| co_stream d s w e1 enc e2 sc : spelled (PDict d) s -> Forall white w -> e1 = [13; 10] \/ e1 = [10] ->
    ~ occurs (B "endstream") enc -> data_end enc e2 ->
    (forall x, dget (B "/Filter") d <> Some (PDict x)) -> decode_stream (Some enc) d = Ok sc ->
    content (PStream d sc (Some enc)) (s ++ w ++ B "stream" ++ e1 ++ enc ++ e2 ++ B "endstream").

(* an indirect object of number n and generation g, up to the word endobj *)
Definition object_text (n g : Z) (o : obj) (txt : bytes) : Prop :=
  exists a w1 b w2 w3 s g4, txt = a ++ w1 ++ b ++ w2 ++ B "obj" ++ w3 ++ s ++ g4 ++ B "endobj" /\
    a <> [] /\ Forall decdigit a /\ n = decimal a /\ b <> [] /\ Forall decdigit b /\ g = decimal b /\
    Forall white w1 /\ w1 <> [] /\ Forall white w2 /\ w2 <> [] /\ Forall white w3 /\
    (w3 <> [] \/ exists c r, s = c :: r /\ delim c) /\ content o s /\ gap g4 /\
    (closed o \/ (exists d x y, o = PStream d x y) \/ g4 <> []).

End WithZlib.
