(* Model of pdfsyntax/text.py, and of the width tables of docstruct.py *)
From Coq Require Import String.
From Verif Require Import PyBase Model_Filters Model_Objects.

(* list(range(a, b)) *)
Definition zrange (a b : Z) : list Z := zseq a (Z.to_nat (b - a)).

(* text.py:6-20  prepare_pdfdoc_charset, PDFDOC_CHARSET *)
Definition PDFDOC_CHARSET : list Z := Eval vm_compute in
  zrange 0 24 ++
  [728; 711; 710; 729; 733; 731; 730; 732] ++
  zrange 32 128 ++
  [8226; 8224; 8225; 8230; 8212; 8211; 402; 8260] ++
  [8249; 8250; 8722; 8240; 8222; 8220; 8221; 8216] ++
  [8217; 8218; 8482; 64257; 64258; 321; 338; 352] ++
  [376; 381; 305; 322; 339; 353; 382; 159; 8364] ++
  zrange 161 256.

(* text.py:23-26  decode_pdfdoc *)
Definition decode_pdfdoc (s : bytes) : bytes :=
  map (fun x => nth (Z.to_nat x) PDFDOC_CHARSET 0) s.

(* bytes.decode('utf-16be'): strict; an odd length or a lone surrogate raises *)
Fixpoint utf16be (s : bytes) : res bytes :=
  match s with
  | [] => Ok []
  | a :: b :: r =>
      let u := 256 * a + b in
      if (55296 <=? u) && (u <? 56320) then
        match r with
        | c :: d :: r' =>
            let v := 256 * c + d in
            if (56320 <=? v) && (v <? 57344) then
              let* t := utf16be r' in Ok (65536 + 1024 * (u - 55296) + (v - 56320) :: t)
            else Exc EUnicodeError
        | _ => Exc EUnicodeError
        end
      else if (56320 <=? u) && (u <? 57344) then Exc EUnicodeError
      else let* t := utf16be r in Ok (u :: t)
  | [_] => Exc EUnicodeError
  end.

(* bytes.fromhex(s): white space allowed between bytes *)
Fixpoint fromhex (s : bytes) : res bytes :=
  match s with
  | [] => Ok []
  | a :: r =>
      if inb a WS then fromhex r
      else match r with
           | b :: r' =>
               if (dval a <? 16) && (dval b <? 16)
               then let* t := fromhex r' in Ok (16 * dval a + dval b :: t)
               else Exc EValueError
           | [] => Exc EValueError
           end
  end.

(* text.py:56-64  the table [sequences] *)
Definition escape_of (c : Z) : option Z :=
  if c =? 40 then Some 40 else if c =? 41 then Some 41
  else if c =? 110 then Some 10 else if c =? 114 then Some 13
  else if c =? 116 then Some 9 else if c =? 98 then Some 8
  else if c =? 102 then Some 12 else if c =? 92 then Some 92
  else None.
Definition is_dec_digit (c : Z) : bool := (48 <=? c) && (c <=? 57).
(* text.py:72-73  bytes([int(string[i+1:i+4], 8)]) *)
Definition octal_byte (s : bytes) : res Z :=
  match py_int 8 s with
  | Some v => if (0 <=? v) && (v <? 256) then Ok v else Exc EValueError
  | None => Exc EValueError
  end.

(* text.py:53-82  unescape_literal_string; the loop index is replaced by the rest of the
   string.  b'' in b'0123456789' is true in Python, hence the exception at a final backslash. *)
Fixpoint unescape_literal_string (s : bytes) : res bytes :=
  match s with
  | [] => Ok []
  | c :: r =>
      if c =? 92 then
        match r with
        | [] => let* v := octal_byte [] in Ok [v]
        | d :: r1 =>
            if is_dec_digit d then
              match r1 with
              | [] => let* v := octal_byte [d] in Ok [v]
              | e :: r2 =>
                  match r2 with
                  | [] => let* v := octal_byte [d; e] in Ok [v]
                  | f :: r3 =>
                      let* v := octal_byte [d; e; f] in
                      let* t := unescape_literal_string r3 in Ok (v :: t)
                  end
              end
            else match escape_of d with
                 | Some x => let* t := unescape_literal_string r1 in Ok (x :: t)
                 | None => unescape_literal_string r
                 end
        end
      else let* t := unescape_literal_string r in Ok (c :: t)
  end.

(* s[i:-1] for a short prefix i *)
Definition inner (i : nat) (s : bytes) : bytes := sub s i (length s - 1).
Definition W_FEFF := Eval vm_compute in B "FEFF".
(* text.py:29-50  text_string (None is returned unchanged by the caller) *)
Definition text_string (string : bytes) : res bytes :=
  let* s := unescape_literal_string string in
  if beqb (firstn 1 s) [40] then
    if beqb (sub s 1 3) [254; 255] then utf16be (inner 3 s)
    else Ok (decode_pdfdoc (inner 1 s))
  else if beqb (firstn 1 s) [60] then
    if beqb (sub s 1 5) W_FEFF then
      let* t := ascii (inner 5 s) in
      let* b := fromhex t in utf16be b
    else
      let* b := fromhex (decode_pdfdoc (inner 1 s)) in Ok (decode_pdfdoc b)
  else Ok [].

(* [s[j:j+n] for j in range(0, len(s), n)] *)
Fixpoint chunks_aux (fuel : nat) (n : nat) (s : bytes) : list bytes :=
  match fuel with
  | O => []
  | S f => match s with [] => [] | _ => firstn n s :: chunks_aux f n (skipn n s) end
  end.
Definition chunks (n : nat) (s : bytes) : list bytes := chunks_aux (length s) n s.

Fixpoint map_res {A C} (f : A -> res C) (l : list A) : res (list C) :=
  match l with
  | [] => Ok []
  | x :: r => let* y := f x in let* t := map_res f r in Ok (y :: t)
  end.

(* text.py:85-92  tokenize_string; word_l = 0 makes range() raise *)
Definition tokenize_string (string : bytes) (word_l : nat) : res (list Z) :=
  if beqb (firstn 1 string) [40] then
    let* s := unescape_literal_string (inner 1 string) in
    if Nat.eqb word_l 0 then Exc EValueError
    else Ok (map from_be (chunks word_l s))
  else
    if Nat.eqb word_l 0 then Exc EValueError
    else map_res (fun x => of_opt EValueError (py_int 16 x)) (chunks (word_l * 2) (inner 1 string)).

(* the codecs of the standard library, upper halves (-1: undefined) *)
Definition MAC_ROMAN : list Z :=
  [196; 197; 199; 201; 209; 214; 220; 225; 224; 226; 228; 227; 229; 231; 233; 232;
   234; 235; 237; 236; 238; 239; 241; 243; 242; 244; 246; 245; 250; 249; 251; 252;
   8224; 176; 162; 163; 167; 8226; 182; 223; 174; 169; 8482; 180; 168; 8800; 198; 216;
   8734; 177; 8804; 8805; 165; 181; 8706; 8721; 8719; 960; 8747; 170; 186; 937; 230; 248;
   191; 161; 172; 8730; 402; 8776; 8710; 171; 187; 8230; 160; 192; 195; 213; 338; 339;
   8211; 8212; 8220; 8221; 8216; 8217; 247; 9674; 255; 376; 8260; 8364; 8249; 8250; 64257; 64258;
   8225; 183; 8218; 8222; 8240; 194; 202; 193; 203; 200; 205; 206; 207; 204; 211; 212;
   63743; 210; 218; 219; 217; 305; 710; 732; 175; 728; 729; 730; 184; 733; 731; 711].
Definition CP1252_C1 : list Z :=
  [8364; -1; 8218; 402; 8222; 8230; 8224; 8225; 710; 8240; 352; 8249; 338; -1; 381; -1;
   -1; 8216; 8217; 8220; 8221; 8226; 8211; 8212; 732; 8482; 353; 8250; 339; -1; 382; 376].
(* bytes.decode('mac_roman') *)
Definition mac_roman (s : bytes) : bytes :=
  map (fun c => if c <? 128 then c else nth (Z.to_nat (c - 128)) MAC_ROMAN 0) s.
(* bytes.decode('cp1252') *)
Definition cp1252 (s : bytes) : res bytes :=
  map_res (fun c => if (128 <=? c) && (c <? 160) then
             let u := nth (Z.to_nat (c - 128)) CP1252_C1 0 in
             if u =? -1 then Exc EUnicodeError else Ok u
           else Ok c) s.
Definition N_MacRoman := Eval vm_compute in B "/MacRomanEncoding".
(* text.py:95-103  apply_encoding *)
Definition apply_encoding (encoding : obj) (string : bytes) : res (bytes * list Z) :=
  let* s := unescape_literal_string (inner 1 string) in
  let* us := match encoding with
             | PStr e => if beqb e N_MacRoman then Ok (mac_roman s) else cp1252 s
             | _ => cp1252 s
             end in
  Ok (us, s).

(* ---------- text.py:106-178  apply_tounicode ---------- *)
Definition W_begincodespacerange := Eval vm_compute in B "begincodespacerange".
Definition W_beginbfchar := Eval vm_compute in B "beginbfchar".
Definition W_endbfchar := Eval vm_compute in B "endbfchar".
Definition W_beginbfrange := Eval vm_compute in B "beginbfrange".
Definition W_endbfrange := Eval vm_compute in B "endbfrange".
Definition is_word (w : bytes) (o : obj) : bool := match o with PStr s => beqb s w | _ => false end.
(* a token: a character code, or the text it has been replaced by *)
Inductive tkn := TCode (z : Z) | TText (s : bytes).
(* len(x) and x[1:-1] are only modelled for byte strings (hexadecimal strings of the
   cmap); another type is an exception (simplification: len of a str or list is one too) *)
Definition hex_body (o : obj) : res bytes :=
  match o with PBytes s => Ok (inner 1 s) | _ => Exc ETypeError end.
Definition hex_int (o : obj) : res Z :=
  let* s := hex_body o in of_opt EValueError (py_int 16 s).
Definition hex_text (o : obj) : res bytes :=
  let* s := hex_body o in let* t := ascii s in let* b := fromhex t in utf16be b.
Definition cmap_at (cmap : list obj) (i : nat) : res obj := of_opt EIndexError (nth_error cmap i).
(* text.py:120-123, 138-141 *)
Definition start_section (cmap : list obj) (i : nat) (string : bytes)
           (wl : nat) (tokens : list tkn) (backup : option (list Z))
  : res (nat * list tkn * option (list Z)) :=
  match tokens with
  | [] =>
      let* c := cmap_at cmap (S i) in
      let* s := match c with PBytes s => Ok s | _ => Exc ETypeError end in
      (* (len - 2) // 2; a length below 2 would make range() raise *)
      let wl := Nat.div (length s - 2) 2 in
      let* t := tokenize_string string wl in
      Ok (wl, map TCode t, Some t)
  | _ => Ok (wl, tokens, backup)
  end.
(* text.py:126-128 *)
Definition bfchar_token (c1 : obj) (c2 : res obj) (t : tkn) : res tkn :=
  let* k := hex_int c1 in
  match t with
  | TCode z => if z =? k then let* c := c2 in let* s := hex_text c in Ok (TText s) else Ok t
  | TText _ => Ok t
  end.
(* f'{x:04X}' / f'{x:02X}' *)
Fixpoint hexdigs (fuel : nat) (n : Z) : bytes :=
  match fuel with
  | O => [hexdig (n mod 16)]
  | S f => if n <? 16 then [hexdig n] else hexdigs f (n / 16) ++ [hexdig (n mod 16)]
  end.
Definition hex_pad (w : nat) (n : Z) : bytes :=
  let s := hexdigs (Z.to_nat (Z.log2 n)) n in repeat 48 (w - length s) ++ s.
(* text.py:144-160 *)
Definition bfrange_token (wl : nat) (c1 : obj) (c2 c3 : res obj) (t : tkn) : res tkn :=
  let* a := hex_int c1 in
  let* o2 := c2 in
  let* z := hex_int o2 in
  match t with
  | TCode n =>
      if (a <=? n) && (n <=? z) then
        let* o3 := c3 in
        match o3 with
        | PList l =>
            let* x := of_opt EIndexError (nth_error l (Z.to_nat (n - a))) in
            let* s := hex_text x in Ok (TText s)
        | _ =>
            let* x := hex_int o3 in
            let* b := fromhex (hex_pad (if Nat.eqb wl 2 then 4 else 2) (x + (n - a))) in
            let* s := utf16be b in Ok (TText s)
        end
      else Ok t
  | TText _ => Ok t
  end.
Inductive section := SecNone | SecChar | SecRange.
(* text.py:112-166, the while loop; i grows at every turn, so length cmap + 1 turns are enough *)
Fixpoint tu_loop (fuel : nat) (cmap : list obj) (string : bytes) (i : nat) (sec : section)
         (wl : nat) (tokens : list tkn) (backup : option (list Z))
  : res (list tkn * option (list Z)) :=
  match fuel with
  | O => Loop
  | S f =>
    match nth_error cmap i with
    | None => Ok (tokens, backup)
    | Some c =>
      let inchar := match sec with SecChar => true | _ => false end in
      let inrange := match sec with SecRange => true | _ => false end in
      if is_word W_begincodespacerange c then tu_loop f cmap string (i + 4) sec wl tokens backup
      else if is_word W_beginbfchar c then
        let* (wt, b) := start_section cmap i string wl tokens backup in
        let '(w, t) := wt in
        tu_loop f cmap string (i + 1) SecChar w t b
      else if inchar && negb (is_word W_endbfchar c) then
        let* t := map_res (bfchar_token c (cmap_at cmap (i + 1))) tokens in
        tu_loop f cmap string (i + 2) sec wl t backup
      else if inchar && is_word W_endbfchar c then tu_loop f cmap string (i + 1) SecNone wl tokens backup
      else if is_word W_beginbfrange c then
        let* (wt, b) := start_section cmap i string wl tokens backup in
        let '(w, t) := wt in
        tu_loop f cmap string (i + 1) SecRange w t b
      else if inrange && negb (is_word W_endbfrange c) then
        let* t := map_res (bfrange_token wl c (cmap_at cmap (i + 1)) (cmap_at cmap (i + 2))) tokens in
        tu_loop f cmap string (i + 3) sec wl t backup
      else if inrange && is_word W_endbfrange c then tu_loop f cmap string (i + 1) SecNone wl tokens backup
      else tu_loop f cmap string (i + 1) sec wl tokens backup
    end
  end.
Definition tkn_text (t : tkn) : bytes := match t with TText s => s | TCode _ => [] end.
(* text.py:106-178 *)
Definition apply_tounicode (cmap : list obj) (string : bytes) : res (bytes * list Z) :=
  let* (t, b) := tu_loop (S (length cmap)) cmap string 0 SecNone 2 [] None in
  let* k := of_opt EUnboundLocal b in
  Ok (concat (map tkn_text t), k).

(* ---------- width tables ---------- *)
(* docstruct.py:883-897  the dictionary [width]; keys are integers (simplification: a key
   that is not an integer raises) *)
Definition wtab := list (Z * obj).
Definition as_code (o : obj) : res Z := match o with PInt z => Ok z | _ => Exc ETypeError end.
Fixpoint put_run (k : Z) (l : list obj) (t : wtab) : wtab :=
  match l with [] => t | x :: r => put_run (k + 1) r ((k, x) :: t) end.
Definition put_range (a b : Z) (x : obj) (t : wtab) : wtab :=
  fold_left (fun t k => (k, x) :: t) (zrange a (b + 1)) t.
Fixpoint w_loop (w : list obj) (t : wtab) {struct w} : res wtab :=
  match w with
  | [] => Ok t
  | a :: r =>
      match r with
      | [] => Exc EIndexError
      | PList l :: r1 =>
          let* k := match l with [] => Ok 0 | _ => as_code a end in
          w_loop r1 (put_run k l t)
      | b :: r1 =>
          match r1 with
          | [] => Exc EIndexError
          | x :: r2 =>
              let* ka := as_code a in
              let* kb := as_code b in
              w_loop r2 (put_range ka kb x t)
          end
      end
  end.
Fixpoint tab_get (t : wtab) (c : Z) (d : obj) : obj :=
  match t with [] => d | (k, x) :: r => if k =? c then x else tab_get r c d end.
(* docstruct.py:876-900  prepare_w(w, default_w)(c) *)
Definition prepare_w (w : obj) (default_w : obj) : res (Z -> obj) :=
  match w with
  | PNone | PList [] => Ok (fun _ => PInt 500)
  | PList l => let* t := w_loop l [] in Ok (fun c => tab_get t c default_w)
  | _ => Exc ETypeError
  end.
(* docstruct.py:903-911  prepare_widths(widths, first_char)(c) *)
Definition prepare_widths (widths : list obj) (first : Z) (c : Z) : obj :=
  let offset := c - first in
  if (offset <? 0) || (Z.of_nat (length widths) <=? offset) then PInt 500
  else nth (Z.to_nat offset) widths PNone.
