(* Specification of text strings, character maps and widths (ISO 32000-1: 7.3.4.2, 7.9.2,
   9.7.4.3, 9.10.3, annex D.2), independent of the model's helpers *)
From Coq Require Import String.
From Verif Require Import PyBase Model_Filters.

(* annex D.2: the codes that PDFDocEncoding does not map to the same code point *)
Definition pdfdoc_special : list (Z * Z) :=
  [(24, 728); (25, 711); (26, 710); (27, 729); (28, 733); (29, 731); (30, 730); (31, 732);
   (128, 8226); (129, 8224); (130, 8225); (131, 8230); (132, 8212); (133, 8211); (134, 402); (135, 8260);
   (136, 8249); (137, 8250); (138, 8722); (139, 8240); (140, 8222); (141, 8220); (142, 8221); (143, 8216);
   (144, 8217); (145, 8218); (146, 8482); (147, 64257); (148, 64258); (149, 321); (150, 338); (151, 352);
   (152, 376); (153, 381); (154, 305); (155, 322); (156, 339); (157, 353); (158, 382); (160, 8364)].
Definition pdfdoc_char (c u : Z) : Prop :=
  In (c, u) pdfdoc_special \/ (~ In c (map fst pdfdoc_special) /\ u = c).

(* table 3: the escape letters *)
Definition escape_letters : list (Z * Z) :=
  [(110, 10); (114, 13); (116, 9); (98, 8); (102, 12); (40, 40); (41, 41); (92, 92)].
Definition octd (a : Z) : Prop := 0 <= a <= 7.

(* escapes raw s: s is a way of writing the bytes raw; octal codes have three digits *)
Inductive escapes : bytes -> bytes -> Prop :=
| Esc_nil : escapes [] []
| Esc_self c raw s : c <> 92 -> escapes raw s -> escapes (c :: raw) (c :: s)
| Esc_letter d c raw s : In (d, c) escape_letters -> escapes raw s -> escapes (c :: raw) (92 :: d :: s)
| Esc_octal a b c raw s : 0 <= a <= 3 -> octd b -> octd c -> escapes raw s ->
    escapes (64 * a + 8 * b + c :: raw) (92 :: 48 + a :: 48 + b :: 48 + c :: s)
| Esc_ignored c raw s : ~ 48 <= c <= 57 -> ~ In c (map fst escape_letters) -> escapes raw s ->
    escapes (c :: raw) (92 :: c :: s).

(* what the standard also allows: shorter octal codes, and an escaped end of line *)
Inductive escapes_iso : bytes -> bytes -> Prop :=
| Iso_base raw s : escapes raw s -> escapes_iso raw s
| Iso_self c raw s : c <> 92 -> escapes_iso raw s -> escapes_iso (c :: raw) (c :: s)
| Iso_octal2 a b raw s : octd a -> octd b -> (forall d s', s = d :: s' -> ~ 48 <= d <= 57) ->
    escapes_iso raw s -> escapes_iso (8 * a + b :: raw) (92 :: 48 + a :: 48 + b :: s)
| Iso_octal1 a raw s : octd a -> (forall d s', s = d :: s' -> ~ 48 <= d <= 57) ->
    escapes_iso raw s -> escapes_iso (a :: raw) (92 :: 48 + a :: s)
| Iso_eol raw s : escapes_iso raw s -> escapes_iso raw (92 :: 10 :: s).

(* the usual writer: a backslash before each parenthesis and backslash *)
Definition escape_min (raw : bytes) : bytes :=
  flat_map (fun c => if (c =? 40) || (c =? 41) || (c =? 92) then [92; c] else [c]) raw.
(* every byte in octal *)
Definition escape_octal (raw : bytes) : bytes :=
  flat_map (fun c => [92; 48 + c / 64; 48 + c / 8 mod 8; 48 + c mod 8]) raw.

(* UTF-16BE encoding of code points *)
Definition scalar (u : Z) : Prop := 0 <= u < 55296 \/ 57344 <= u < 1114112.
Definition unit_be (u : Z) : bytes := [u / 256; u mod 256].
Definition utf16_char (u : Z) : bytes :=
  if u <? 65536 then unit_be u
  else unit_be (55296 + (u - 65536) / 1024) ++ unit_be (56320 + (u - 65536) mod 1024).
Definition utf16_encode (cps : list Z) : bytes := flat_map utf16_char cps.

(* the two notations of a string object *)
Definition literal (s : bytes) : bytes := 40 :: s ++ [41].
Definition hexstr (raw : bytes) : bytes := 60 :: hexlify_up raw ++ [62].

(* character codes of wl bytes *)
Definition codes_bytes (wl : nat) (cs : list Z) : bytes := concat (map (be_digits wl) cs).

(* ---------- ToUnicode maps (9.10.3) ---------- *)
(* one declaration of a range section *)
Inductive rdecl := RTo (a z x : Z) | RList (a : Z) (l : list (list Z)).
Inductive citem :=
| CWord (o : obj)                               (* anything else, in between *)
| CSpace (lo hi : Z)
| CChars (ps : list (Z * list Z))               (* code, text *)
| CRanges (rs : list rdecl).
Definition rdecl_code (wl : nat) (r : rdecl) : list obj :=
  match r with
  | RTo a z x => [PBytes (hexstr (be_digits wl a)); PBytes (hexstr (be_digits wl z)); PBytes (hexstr (unit_be x))]
  | RList a l => [PBytes (hexstr (be_digits wl a)); PBytes (hexstr (be_digits wl (a + Z.of_nat (length l) - 1)));
                  PList (map (fun t => PBytes (hexstr (utf16_encode t))) l)]
  end.
Definition citem_code (wl : nat) (it : citem) : list obj :=
  match it with
  | CWord o => [o]
  | CSpace lo hi => [PStr (B "begincodespacerange"); PBytes (hexstr (be_digits wl lo));
                     PBytes (hexstr (be_digits wl hi)); PStr (B "endcodespacerange")]
  | CChars ps => PStr (B "beginbfchar")
      :: flat_map (fun p => [PBytes (hexstr (be_digits wl (fst p))); PBytes (hexstr (utf16_encode (snd p)))]) ps
      ++ [PStr (B "endbfchar")]
  | CRanges rs => PStr (B "beginbfrange") :: flat_map (rdecl_code wl) rs ++ [PStr (B "endbfrange")]
  end.
Definition cmap_code (wl : nat) (l : list citem) : list obj := flat_map (citem_code wl) l.
(* the text a declaration gives to a code *)
Definition rdecl_text (c : Z) (r : rdecl) : option (list Z) :=
  match r with
  | RTo a z x => if (a <=? c) && (c <=? z) then Some [x + (c - a)] else None
  | RList a l => if a <=? c then nth_error l (Z.to_nat (c - a)) else None
  end.
Fixpoint first_some {A C} (f : A -> option C) (l : list A) : option C :=
  match l with [] => None | x :: r => match f x with Some y => Some y | None => first_some f r end end.
Definition citem_text (c : Z) (it : citem) : option (list Z) :=
  match it with
  | CChars ps => first_some (fun p => if fst p =? c then Some (snd p) else None) ps
  | CRanges rs => first_some (rdecl_text c) rs
  | _ => None
  end.
Definition cmap_text (l : list citem) (c : Z) : list Z :=
  match first_some (citem_text c) l with Some t => t | None => [] end.
(* well formed declarations, for codes of wl bytes *)
Definition code_ok (wl : nat) (c : Z) : Prop := 0 <= c < 256 ^ Z.of_nat wl.
Definition rdecl_ok (wl : nat) (r : rdecl) : Prop :=
  match r with
  | RTo a z x => wl = 2%nat /\ code_ok wl a /\ code_ok wl z /\ 0 <= x < 65536 /\
                 forall k, a <= k <= z -> scalar (x + (k - a)) /\ x + (k - a) < 65536
  | RList a l => l <> [] /\ code_ok wl a /\ code_ok wl (a + Z.of_nat (length l) - 1) /\ Forall (Forall scalar) l
  end.
Definition citem_ok (wl : nat) (it : citem) : Prop :=
  match it with
  | CWord o => ~ In o (map (fun w => PStr (B w))
       ["begincodespacerange"; "beginbfchar"; "endbfchar"; "beginbfrange"; "endbfrange"]%string)
  | CSpace lo hi => True
  | CChars ps => ps <> [] /\ Forall (fun p => code_ok wl (fst p) /\ Forall scalar (snd p)) ps
  | CRanges rs => rs <> [] /\ Forall (rdecl_ok wl) rs
  end.
Definition has_section (l : list citem) : Prop :=
  exists it, In it l /\ match it with CChars _ | CRanges _ => True | _ => False end.

(* ---------- widths of CID fonts (9.7.4.3) ---------- *)
Inductive wdecl := WRun (first : Z) (ws : list obj) | WRange (first last : Z) (w : obj).
Definition wdecl_code (d : wdecl) : list obj :=
  match d with
  | WRun a ws => [PInt a; PList ws]
  | WRange a z w => [PInt a; PInt z; w]
  end.
(* the width a declaration gives to a character *)
Definition wdecl_width (c : Z) (d : wdecl) : option obj :=
  match d with
  | WRun a ws => if a <=? c then nth_error ws (Z.to_nat (c - a)) else None
  | WRange a z w => if (a <=? c) && (c <=? z) then Some w else None
  end.
