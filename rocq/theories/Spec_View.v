(* Specification vocabulary for the text of an object in the HTML view *)
From Coq Require Import String Permutation.
From Verif Require Import PyBase Model_Filters Model_Objects Model_Filestruct Model_Text Model_Graphics Model_Display Spec_Objects Spec_Display.
Open Scope Z_scope.

(* a text written in HTML *)
Inductive html_char : Z -> bytes -> Prop :=
| Hc_amp : html_char 38 (B "&amp;")
| Hc_lt : html_char 60 (B "&lt;")
| Hc_gt : html_char 62 (B "&gt;")
| Hc_quot : html_char 34 (B "&quot;")
| Hc_apos : html_char 39 (B "&#x27;")
| Hc_self c : ~ In c (B "&<>""'") -> html_char c [c].
Definition in_html (s t : bytes) : Prop := exists ts, Forall2 html_char s ts /\ t = concat ts.

(* a byte string written as in Python, between quotes q *)
Definition hex_digit (a : Z) : Z := nth (Z.to_nat a) (B "0123456789abcdef") 0.
Inductive py_char (q : Z) : Z -> bytes -> Prop :=
| Py_quote c : c = q \/ c = 92 -> py_char q c [92; c]
| Py_tab : py_char q 9 (B "\t")
| Py_lf : py_char q 10 (B "\n")
| Py_cr : py_char q 13 (B "\r")
| Py_self c : 32 <= c <= 126 -> c <> q -> c <> 92 -> py_char q c [c]
| Py_hex c a b : c < 32 \/ 126 < c -> c <> 9 -> c <> 10 -> c <> 13 -> c <> q -> 0 <= a < 16 -> 0 <= b < 16 -> c mod 256 = 16 * a + b ->
    py_char q c (B "\x" ++ [hex_digit a; hex_digit b]).
Inductive in_python (s t : bytes) : Prop :=
| Ip_double ts : In 39 s -> ~ In 34 s -> Forall2 (py_char 34) s ts -> t = concat ts -> in_python s t
| Ip_single ts : ~ In 39 s \/ In 34 s -> Forall2 (py_char 39) s ts -> t = concat ts -> in_python s t.

(* the entries of a dictionary: the type first, then the subtype, the others in their order *)
Definition other_key (k : bytes) : bool := negb (beqb k (B "/Type")) && negb (beqb k (B "/Subtype")).
Definition key_order (ks ks' : list bytes) : Prop :=
  Permutation ks ks' /\ filter other_key ks' = filter other_key ks /\
  (In (B "/Type") ks -> nth_error ks' 0 = Some (B "/Type")) /\
  (In (B "/Subtype") ks -> nth_error ks' 1 = Some (B "/Subtype") \/ ks = [B "/Subtype"]).
(* the marks around the name and the value of an entry *)
Inductive marks : bytes -> bytes -> bytes -> bytes -> bytes -> bytes -> Prop :=
| Mk_type k v : k = B "/Type" \/ k = B "/Subtype" -> marks k v [] [] (B "<span class=""important"">") (B "</span>")
| Mk_script v : marks (B "/JS") v (B "<span class=""warning"">") (B "</span>") [] []
| Mk_action k : ~ In k [B "/Type"; B "/Subtype"; B "/JS"] -> marks k (B "/JavaScript") [] [] (B "<span class=""warning"">") (B "</span>")
| Mk_prev v : v <> B "/JavaScript" -> marks (B "/Prev") v [] [] (B "<a class=""obj-link"" href=""#idx" ++ v ++ B """>") (B "</a>")
| Mk_none k v : ~ In k [B "/Type"; B "/Subtype"; B "/JS"; B "/Prev"] -> v <> B "/JavaScript" -> marks k v [] [] [] [].
Definition entry_shown (depth : nat) (es : list (bytes * bytes)) (k line : bytes) : Prop :=
  exists v a1 b1 a2 b2 pad, In (k, v) es /\ marks k v a1 b1 a2 b2 /\ (length pad + length k = Nat.max 20 (length k))%nat /\ Forall (eq 32) pad /\
    line = repeat 32 (22 * depth) ++ B "  " ++ a1 ++ k ++ pad ++ b1 ++ a2 ++ v ++ b2 ++ [10].
Definition dict_shown (depth : nat) (es : list (bytes * bytes)) (t : bytes) : Prop :=
  exists ks ls, key_order (map fst es) ks /\ Forall2 (entry_shown depth es) ks ls /\ t = B "&lt;&lt;" ++ [10] ++ concat ls ++ repeat 32 (22 * depth) ++ B "&gt;&gt;".
(* a long array without links is cut *)
Definition linked_text (s : bytes) : Prop := exists a b, s = a ++ B "href" ++ b.
Inductive array_shown (ts : list bytes) : bytes -> Prop :=
| Ar_whole s : s = B "[ " ++ concat (map (fun t => t ++ B " ") ts) -> (length s <= 30)%nat \/ linked_text s -> array_shown ts (s ++ B "]")
| Ar_cut s r : s ++ r = B "[ " ++ concat (map (fun t => t ++ B " ") ts) -> length s = 30%nat -> r <> [] -> ~ linked_text (s ++ r) -> array_shown ts (s ++ cut_mark ++ B "]").
(* a string of more than 30 bytes is cut *)
Inductive string_shown (s : bytes) : bytes -> Prop :=
| Ss_whole p t : (length s <= 30)%nat -> in_python s p -> in_html p t -> string_shown s t
| Ss_cut a r p t : s = a ++ r -> length a = 30%nat -> r <> [] -> in_python a p -> in_html p t -> string_shown s (t ++ cut_mark).
(* the content of a stream: its text, or the start of its bytes in hexadecimal *)
Inductive content_shown : option bytes -> bool -> bytes -> Prop :=
| Cn_hidden s : content_shown s false []
| Cn_none : content_shown None true []
| Cn_empty : content_shown (Some []) true []
| Cn_text c p : c <> [] -> printable_stream_content c = Some p ->
    content_shown (Some c) true (B "  " ++ [10] ++ B "stream" ++ [10] ++ B "<details>" ++ [10] ++ B "<summary class=""stream-content"">see content</summary>" ++ [10] ++
      B "<pre class=""detail"">" ++ p ++ B "</pre>" ++ [10] ++ B "</details>" ++ [10] ++ B "endstream" ++ [10])
| Cn_hex c h r : c <> [] -> printable_stream_content c = None -> h ++ r = B "&lt;" ++ hex_l c ++ B "&gt;" -> length h = 60%nat \/ (length h < 60)%nat /\ r = [] ->
    content_shown (Some c) true (B "  " ++ [10] ++ B "stream" ++ [10] ++ h ++ cut_mark ++ [10] ++ B "endstream" ++ [10]).
Definition plain_value (o : obj) (s : bytes) : Prop :=
  (o = PNone /\ s = B "None") \/ (o = PBool true /\ s = B "True") \/ (o = PBool false /\ s = B "False") \/ (exists n, o = PInt n /\ s = dec n) \/
  (exists m e, o = PReal m e /\ s = float_repr m e) \/ o = PStr s.

(* the text of an object, row being the last revision of the index *)
Inductive view (row : list slot) : nat -> bool -> obj -> bytes -> Prop :=
| Vw_plain depth b o s t : plain_value o s -> in_html s t -> view row depth b o t
| Vw_string depth b s t : string_shown (40 :: s) t -> view row depth b (PBytes (40 :: s)) t
| Vw_bytes depth b s t : (forall r, s <> 40 :: r) -> Forall (fun c => 0 <= c < 128) s -> in_html s t -> view row depth b (PBytes s) t
| Vw_ref depth b g n e : pyget row n = Ok (SDict e) ->
    view row depth b (PRef g n) (B "<a href=""#idx" ++ pos_text (n_pos e) ++ B """>" ++ B "<span class=""obj-link"">" ++ dec n ++ B " " ++ dec g ++ B " R</span>" ++ B "</a>")
| Vw_list depth b l ts t : views row l ts -> array_shown ts t -> view row depth b (PList l) t
| Vw_dict depth b d es t : entry_views row (S depth) d es -> dict_shown depth es t -> view row depth b (PDict d) t
| Vw_stream depth b d s e es t u : entry_views row (S depth) d es -> dict_shown depth es t -> content_shown s b u -> view row depth b (PStream d s e) (t ++ u)
with views (row : list slot) : list obj -> list bytes -> Prop :=
| Vs_nil : views row [] []
| Vs_cons o t l ts : view row 0 true o t -> views row l ts -> views row (o :: l) (t :: ts)
with entry_views (row : list slot) : nat -> dict -> list (bytes * bytes) -> Prop :=
| Ev_nil n : entry_views row n [] []
| Ev_cons n k o t d es : view row n true o t -> entry_views row n d es -> entry_views row n ((k, o) :: d) ((k, t) :: es).
