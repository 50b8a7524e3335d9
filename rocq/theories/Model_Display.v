(* Model of pdfsyntax/display.py (the HTML view of a file), of cli.py:401-411 (file_map) and of
   api.py:399-464 (cross_map_index).  Text is a list of character codes.  *)
From Coq Require Import String.
From Verif Require Import PyBase Model_Filters Model_Objects Model_Filestruct Model_Text Model_Graphics Model_Docstruct Model_Api.

(* display.py:14-203  HEADER, TRAILER, TRUNCATED *)
Definition HEADER : bytes := B "<!DOCTYPE html>
<html lang=""en"">
<head>
    <meta charset=""UTF-8"">
    <meta http-equiv=""X-UA-Compatible"" content=""IE=edge"">
    <meta name=""viewport"" content=""width=device-width, initial-scale=1.0"">
    <title>PDFSyntax</title>
    <style>
        .content {
            font-family: monospace;
            background: linear-gradient(to right, #cccccc 10ch, transparent 5ch);
        }
	.s {
	    position: relative;
	    left: 11ch;
	    background-color: green;
	}
        pre {
            margin-top: 0;
            margin-bottom: 0;
        }
        ul {
           padding-left: 1em;
           list-style: none;
           line-height: 0.9em;
        }
        nav {
            position: fixed;
            right: 1em;
            width: 22em;
            top: 4em;
            max-height: 80%;
            overflow-x: scroll;
            border: 2px dotted grey;
        }
        p {
            line-height: 2em;
            padding-top: 1em;
            padding-bottom: 1em;
            padding-left: 1em;
        }
        .nav-x {
            overflow-x: scroll;
        }
        .nav-y {
            overflow-y: scroll;
        }
        .block {
            margin-top: 0.5em;
            margin-bottom: 0.5em;
            padding-top: 1em;
            padding-bottom: 1em;
        }
        .xref-item {
	    position: relative;
	    left: 11ch;
            margin: 0 0 0 0;
        }
        .obj-body {
	    position: relative;
	    left: 12ch;
            margin: 0 0 0 0;
        }
        .obj-header {
	    position: relative;
	    left: 2ch;
            margin: 0 0 0 0;
        }
        .header {
            position: fixed;
            top: 0;
            right: 1em;
            height: 2em;
            padding: 0.2em 1em 0 1em;
            border: 2px dotted Grey;
        }
        .title {
            position: sticky;
            top: 0;
            left: 0;
            height: 1.8em;
            padding: 0.3em 1em 0.1em 1em;
            margin-bottom: 0.5em;
        }
        .nav-idx {
            display: inline-block;
            width: 4em;
            padding-left: 0.5em;
        }
        .b0 {
            background-color: white;
        }
        .b1 {
            background-color: #dddddd;
        }
        .b2 {
            background-color: #cccccc;
        }
        .b3 {
            background-color: #bbbbbb;
        }
        .c0 {
            color: black;
        }
        .c1 {
            color: #555555;
        }
        :target {
            background-color: lightyellow;
        }
        .important {
            background-color: antiquewhite;
        }
        .warning {
            background-color: crimson;
        }
        a {
            color: blue;
        }
        .stream-content {
            color: blue;
            text-decoration: underline;
            font-style: italic;
        }
        :visited {
            color: blue;
        }

@media (prefers-color-scheme: dark) {
       body {
            background-color: black;
            color: white;
        }
        .content {
            font-family: monospace;
            background: linear-gradient(to right, #333333 10ch, transparent 5ch);
        }
        .b0 {
            background-color: black;
        }
        .b1 {
            background-color: #222222;
        }
        .b2 {
            background-color: #333333;
        }
        .b3 {
            background-color: #444444;
        }
        .c0 {
            color: #dddddd;
        }
        .c1 {
            color: grey;
        }
        :target {
            background-color: #222200;
        }
        .important {
            background-color: olive;
        }
        .warning {
            background-color: firebrick;
        }
        a {
            color: deepskyblue;
        }
        .stream-content {
            color: deepskyblue;
            text-decoration: underline;
            font-style: italic;
        }
        :visited {
            color: deepskyblue;
        }
}

    </style>
</head>
<body class=""b1 c0"">
<div class=""content"">
".
Definition TRAILER : bytes := B "
<div id=""end""><code><em>endoffile</em></code></div>
</div>
</body>
".
Definition TRUNCATED : bytes := Eval vm_compute in B "<em> ...(truncated) </em>".
Definition NL : bytes := [10].

(* {s:w}, {z:0w} *)
Definition zpad := pad0.
Definition ljust (w : nat) (s : bytes) : bytes := s ++ repeat 32 (w - length s).
(* bytes.hex(); a byte is below 256 *)
Definition hex_l (s : bytes) : bytes := flat_map (fun c => [hexdig_l (c / 16 mod 16); hexdig_l (c mod 16)]) s.
(* html.escape(s) with quote = True *)
Definition escape1 (c : Z) : bytes :=
  if c =? 38 then B "&amp;" else if c =? 60 then B "&lt;" else if c =? 62 then B "&gt;"
  else if c =? 34 then B "&quot;" else if c =? 39 then B "&#x27;" else [c].
Definition escape (s : bytes) : bytes := flat_map escape1 s.
(* repr(b)[2:-1] *)
Definition repr1 (quote c : Z) : bytes :=
  if (c =? quote) || (c =? 92) then [92; c] else if c =? 9 then [92; 116] else if c =? 10 then [92; 110] else if c =? 13 then [92; 114]
  else if (c <? 32) || (126 <? c) then [92; 120; hexdig_l (c / 16 mod 16); hexdig_l (c mod 16)] else [c].
Definition repr_body (s : bytes) : bytes :=
  let quote := if inb 39 s && negb (inb 34 s) then 34 else 39 in flat_map (repr1 quote) s.
(* a position in a link: an int, the float bo + (j+1)/10000 of an embedded object (at most four
   decimals shown), a pair, or None *)
Definition drop0 (s : bytes) : bytes := rev (lstrip [48] (rev s)).
Definition pos_text (p : option apos) : bytes :=
  match p with
  | None => B "None"
  | Some (AInt z) => dec z
  | Some (AFloat l k) => dec (l + k / 10000) ++ B "." ++ drop0 (zpad 4 (k mod 10000))
  | Some (ATup e o) => B "(" ++ dec e ++ B ", " ++ dec o ++ B ")"
  end.

(* display.py:467-473  move_list_item *)
Fixpoint drop_first (k : bytes) (l : list bytes) : list bytes :=
  match l with [] => [] | x :: r => if beqb x k then r else x :: drop_first k r end.
Definition move_list_item (l : list bytes) (k : bytes) (n : nat) : list bytes :=
  if existsb (beqb k) l then let r := drop_first k l in firstn n r ++ k :: skipn n r else l.

Definition K_JS := Eval vm_compute in B "/JS".
Definition V_JavaScript := Eval vm_compute in B "/JavaScript".
(* 'href' in s *)
Definition has_href (s : bytes) : bool := match find (B "href") s 0 with Some _ => true | None => false end.

(* display.py:480-487 : a reference *)
Definition follow_ref (row : list slot) (g n : Z) : res bytes :=
  let* s := pyget row n in
  match s with
  | SDict e => Ok (B "<a href=""#idx" ++ pos_text (n_pos e) ++ B """>" ++ B "<span class=""obj-link"">" ++ dec n ++ B " " ++ dec g ++ B " R</span>" ++ B "</a>")
  | _ => Exc EAttributeError
  end.
(* display.py:497-509 : one entry, its name and the text of its value *)
Definition entry_line (name value : bytes) : bytes :=
  if beqb name K_Type || beqb name K_Subtype then B "  " ++ ljust 20 name ++ B "<span class=""important"">" ++ value ++ B "</span>" ++ NL
  else if beqb name K_JS then B "  <span class=""warning"">" ++ ljust 20 name ++ B "</span>" ++ value ++ NL
  else if beqb value V_JavaScript then B "  " ++ ljust 20 name ++ B "<span class=""warning"">" ++ value ++ B "</span>" ++ NL
  else if beqb name K_Prev then B "  " ++ ljust 20 name ++ B "<a class=""obj-link"" href=""#idx" ++ value ++ B """>" ++ value ++ B "</a>" ++ NL
  else B "  " ++ ljust 20 name ++ value ++ NL.
(* display.py:512-522 : the content of a stream *)
Definition stream_part (content : option bytes) (display_stream : bool) : bytes :=
  match content with
  | Some (c0 :: c) =>
      if display_stream then
        B "  " ++ NL ++ B "stream" ++ NL ++
        match printable_stream_content (c0 :: c) with
        | Some p => B "<details>" ++ NL ++ B "<summary class=""stream-content"">see content</summary>" ++ NL ++
                    B "<pre class=""detail"">" ++ p ++ B "</pre>" ++ NL ++ B "</details>" ++ NL
        | None => firstn 60 (B "&lt;" ++ hex_l (c0 :: c) ++ B "&gt;") ++ TRUNCATED ++ NL
        end ++ B "endstream" ++ NL
      else []
  | _ => []
  end.
(* display.py:532-547 : the other values *)
Definition leaf (o : obj) : res bytes :=
  match o with
  | PNone => Ok (escape (B "None"))
  | PBool b => Ok (escape (if b then B "True" else B "False"))
  | PInt z => Ok (escape (dec z))
  | PReal m e => Ok (escape (float_repr m e))
  | PStr s => Ok (escape s)
  | PBytes s =>
      if beqb (firstn 1 s) [40] then Ok (escape (repr_body (firstn 30 s)) ++ (if Nat.ltb 30 (length s) then TRUNCATED else []))
      else let* t := ascii s in Ok (escape t)
  | _ => Exc EUnsupported
  end.
Fixpoint text_of (k : bytes) (d : list (bytes * bytes)) : option bytes :=
  match d with [] => None | (n, v) :: r => if beqb k n then Some v else text_of k r end.
(* the values of the keys, in the order of keys *)
Fixpoint lines_of (depth : nat) (d : list (bytes * bytes)) (keys : list bytes) : bytes :=
  match keys with
  | [] => []
  | k :: r => match text_of k d with
              | Some v => repeat 32 (22 * depth) ++ entry_line k v ++ lines_of depth d r
              | None => lines_of depth d r
              end
  end.

(* display.py:476-548  follow_obj.  The texts of all values are computed before being put in the
   order of the keys: with an exception, the same one is raised unless two values raise. *)
Fixpoint follow_obj (row : list slot) (depth : nat) (display_stream : bool) (o : obj) {struct o} : res bytes :=
  let fix entries (d : dict) : res (list (bytes * bytes)) :=
    match d with
    | [] => Ok []
    | (k, v) :: r => let* t := follow_obj row (S depth) true v in let* l := entries r in Ok ((k, t) :: l)
    end in
  let fix items (l : list obj) : res bytes :=
    match l with
    | [] => Ok []
    | v :: r => let* t := follow_obj row 0 true v in let* b := items r in Ok (t ++ B " " ++ b)
    end in
  let dict_text (d : dict) : res bytes :=
    let* es := entries d in
    Ok (B "&lt;&lt;" ++ NL ++ lines_of depth es (move_list_item (move_list_item (map fst es) K_Type 0) K_Subtype 1)
        ++ repeat 32 (22 * depth) ++ B "&gt;&gt;") in
  match o with
  | PRef g n => follow_ref row g n
  | PDict d => dict_text d
  | PStream d s _ => let* t := dict_text d in Ok (t ++ stream_part s display_stream)
  | PList l =>
      let* b := items l in
      let ret := B "[ " ++ b in
      Ok ((if Nat.ltb 30 (length ret) && negb (has_href ret) then firstn 30 ret ++ TRUNCATED else ret) ++ B "]")
  | _ => leaf o
  end.

(* ---------- cross map ---------- *)
(* what is kept of the sections of file_object_map: positions, numbers, objects *)
Inductive article :=
| ArStart (pos : nat) (v : bytes)
| ArComment (pos : nat) (text : bytes)
| ArObj (pos : option apos) (embedded : option (Z * nat)) (num : Z) (o : obj)
| ArTable (pos : nat) (lines : list xline) (trailer : obj)
| ArStream (pos : option nat) (lines : list xsline).
(* cli.py:401-411  file_map, the sections without VOID; t is the file *)
Definition as_num (o : obj) : res Z := match o with PInt z => Ok z | _ => Exc EUnsupported end.
Definition articles_of (t : bytes) (i : Model_Filestruct.item) : res (list article) :=
  match i with
  | ItReg (RVoid _ _) _ => Ok []
  | ItReg (RComment b e) _ => Ok [ArComment b (sub t b e)]
  | ItReg (RStartxref b _ v) _ => Ok [ArStart b v]
  | ItReg (RInd o) _ => Ok [ArObj (option_map (fun b => AInt (Z.of_nat b)) (i_beg o)) None (i_num o) (i_obj o)]
  | ItReg (RXref x) _ => Ok [ArTable (xt_beg x) (xt_lines x) (xt_trailer x)]
  | ItXS bo _ tab => Ok [ArStream bo (map fst tab)]
  | ItEmb bo j e => let* n := as_num (e_num e) in Ok [ArObj (Some (AFloat (Z.of_nat bo) (Z.of_nat j + 1))) (Some (e_env e, j)) n (e_obj e)]
  end.
Fixpoint articles (t : bytes) (l : list Model_Filestruct.item) : res (list article) :=
  match l with [] => Ok [] | i :: r => let* a := articles_of t i in let* b := articles t r in Ok (a ++ b) end.

(* cross[pos] = (num, relevance, targets, used_by) *)
Record crossent := mk_cross { c_num : Z; c_rel : option (Z * Z); c_targets : option (list ref); c_used : list (Z * option apos) }.
Definition cross_t := list (option apos * crossent).
Fixpoint cget (k : option apos) (l : cross_t) : option crossent :=
  match l with [] => None | (p, c) :: r => if oapos_eqb p k then Some c else cget k r end.
Fixpoint cset (k : option apos) (v : crossent) (l : cross_t) : cross_t :=
  match l with [] => [(k, v)] | (p, c) :: r => if oapos_eqb p k then (p, v) :: r else (p, c) :: cset k v r end.

(* api.py:399-416  find_xref_table_pos_in_index *)
Definition slot_xt (s : slot) : res (option Z) := match s with SDict e => Ok (n_xt e) | _ => Exc EAttributeError end.
Fixpoint any_xt (pos : Z) (l : list slot) : res bool :=
  match l with
  | [] => Ok false
  | s :: r => let* x := slot_xt s in let* b := any_xt pos r in Ok (match x with Some y => y =? pos | None => false end || b)
  end.
Fixpoint last_xt (pos : Z) (found : option (Z * Z)) (ver : Z) (rows : list (list slot)) : res (option (Z * Z)) :=
  match rows with
  | [] => Ok found
  | row :: r =>
      let* s := pyget row 0 in
      match s with
      | SNone => last_xt pos found (ver + 1) r
      | _ => let* x := slot_xt s in
             last_xt pos (match x with Some y => if y =? pos then Some (0, ver) else found | None => found end) (ver + 1) r
      end
  end.
Definition find_xref_table_pos_in_index (pos : Z) (index : list (list slot)) : res (option (Z * Z)) :=
  match index with
  | [] => Exc EIndexError
  | row0 :: rows =>
      let* s := pyget row0 0 in
      let* b := any_xt pos (match s with SList l => l | SDict _ => [s] | SNone => [SNone] end) in
      last_xt pos (if b : bool then Some (0, 0) else None) 1 rows
  end.
(* api.py:419-434  find_abs_pos_in_index: the last revision of the first number found *)
Fixpoint last_ver (pos : option apos) (num : Z) (found : option (Z * Z)) (ver : Z) (rows : list (list slot)) : res (option (Z * Z)) :=
  match rows with
  | [] => Ok found
  | row :: r =>
      if Z.of_nat (length row) - 1 <? num then last_ver pos num found (ver + 1) r
      else let* s := pyget row num in
           match s with
           | SNone => last_ver pos num found (ver + 1) r
           | SDict e => last_ver pos num (if oapos_eqb (n_pos e) pos then Some (num, ver) else found) (ver + 1) r
           | SList _ => Exc EAttributeError
           end
  end.
Fixpoint first_num (fuel : nat) (pos : option apos) (num : Z) (index : list (list slot)) : res (option (Z * Z)) :=
  match fuel with
  | O => Ok None
  | S f => let* x := last_ver pos num None 0 index in
           match x with Some _ => Ok x | None => first_num f pos (num + 1) index end
  end.
Definition find_abs_pos_in_index (pos : option apos) (index : list (list slot)) : res (option (Z * Z)) :=
  let* row := pyget index (-1) in first_num (length row - 1) pos 1 index.

(* api.py:437-453 *)
Fixpoint cross_entries (l : list article) (index : list (list slot)) (ret : cross_t) : res cross_t :=
  match l with
  | [] => Ok ret
  | ArTable pos _ tr :: r =>
      let* rel := find_xref_table_pos_in_index (Z.of_nat pos) index in
      cross_entries r index (cset (Some (AInt (Z.of_nat pos))) (mk_cross 0 rel (deep_ref_detect tr) []) ret)
  | ArObj pos _ num o :: r =>
      let* rel := find_abs_pos_in_index pos index in
      cross_entries r index (cset pos (mk_cross num rel (deep_ref_detect o) []) ret)
  | _ :: r => cross_entries r index ret
  end.
(* api.py:459-463; targets is a set: each reference once, in an unspecified order (here the
   order of first occurrence) *)
Fixpoint ref_set (l : list ref) : list ref :=
  match l with [] => [] | x :: r => x :: filter (fun y => negb ((fst x =? fst y) && (snd x =? snd y))) (ref_set r) end.
Fixpoint add_users (row : list slot) (num : Z) (pos : option apos) (l : list ref) (ret : cross_t) : res cross_t :=
  match l with
  | [] => Ok ret
  | (_, n) :: r =>
      let* s := pyget row n in
      let* e := as_dict s in
      let* p := match n_pos e with Some p => Ok p | None => Exc EKeyError end in
      match cget (Some p) ret with
      | None => Exc EKeyError
      | Some c => add_users row num pos r (cset (Some p) (mk_cross (c_num c) (c_rel c) (c_targets c) (c_used c ++ [(num, pos)])) ret)
      end
  end.
(* api.py:454-463 *)
Fixpoint cross_users (keys : list (option apos)) (index : list (list slot)) (ret : cross_t) : res cross_t :=
  match keys with
  | [] => Ok ret
  | k :: r =>
      match cget k ret with
      | None => Exc EKeyError
      | Some c =>
          match c_rel c with
          | None => Exc ETypeError
          | Some (_, ver) =>
              if ver <? Z.of_nat (length index) - 1 then cross_users r index ret
              else match c_targets c with
                   | None => Exc ETypeError
                   | Some l => let* row := pyget index (-1) in
                               let* ret1 := add_users row (c_num c) k (ref_set l) ret in
                               cross_users r index ret1
                   end
          end
      end
  end.
Definition cross_map_index (l : list article) (index : list (list slot)) : res cross_t :=
  let* ret := cross_entries l index [] in cross_users (map fst ret) index ret.

(* ---------- the page ---------- *)
(* display.py:370-386  add_startxref; int(xref) *)
Definition add_startxref (pos : nat) (v : bytes) : res bytes :=
  let* x := of_opt EValueError (py_int 10 v) in
  let p := Z.of_nat pos in
  Ok (B "<div class=""block"" id=""idx" ++ dec p ++ B """>" ++ NL ++ B "<div>" ++ NL ++ B "<pre>" ++ NL ++
      B "<span class=""c1"">" ++ zpad 10 p ++ B "</span><span class=""obj-header b0"">startxref</span>" ++ NL ++
      B "<div class=""obj-body b0"">" ++ NL ++
      B "<a class=""obj-link"" href=""#idx" ++ dec x ++ B """>" ++ dec x ++ B "</a>" ++ NL ++
      B "</div>" ++ NL ++ NL ++ B "</pre>" ++ NL ++ B "</div>" ++ NL ++ B "</div>" ++ NL).
(* display.py:389-404  add_comment *)
Definition add_comment (pos : nat) (text : bytes) : bytes :=
  let detail := match ascii (firstn 10 text) with Ok s => s | _ => B "&lt;" ++ hex_l text ++ B "&gt;" end in
  let p := Z.of_nat pos in
  B "<div class=""block"" id=""idx" ++ dec p ++ B """>" ++ NL ++ B "<div>" ++ NL ++ B "<pre class=""comment"">" ++ NL ++
  B "<span class=""c1"">" ++ zpad 10 p ++ B "</span><span class=""obj-header b0"">" ++ detail ++ B "</span>" ++ NL ++
  B "</pre>" ++ NL ++ B "</div>" ++ NL ++ B "</div>" ++ NL.
(* display.py:407-419  add_eof *)
Definition add_eof (pos : nat) : bytes :=
  let p := Z.of_nat pos in
  NL ++ B "<div class=""block"" id=""idx" ++ dec p ++ B """>" ++ NL ++ B "<div>" ++ NL ++ B "<pre class=""eof"">" ++ NL ++
  B "<span class=""c1"">" ++ zpad 10 p ++ B "</span><span class=""obj-header b0"">%%EOF</span>" ++ NL ++
  B "</pre>" ++ NL ++ B "</div>" ++ NL ++ B "</div>" ++ NL.
(* display.py:422-439  build_xref_table *)
Fixpoint build_xref_table (l : list xline) : res bytes :=
  match l with
  | [] => Ok []
  | XSub a n :: r => let* t := build_xref_table r in Ok (dec a ++ B "  " ++ dec n ++ NL ++ t)
  | XEnt pos num gen kw :: r =>
      let* st := ascii kw in
      let* t := build_xref_table r in
      Ok (zpad 10 pos ++ B " " ++ zpad 5 gen ++ B " " ++ st ++
          (if beqb kw (B "f") then []
           else B "    " ++ B "<a href=""#idx" ++ dec pos ++ B """>" ++ B "<span class=""obj-link"">#" ++ dec num ++ B " " ++ dec gen ++ B "</span>" ++ B "</a>") ++
          NL ++ t)
  end.
(* display.py:442-464 : one line of build_xref_stream *)
Definition xref_stream_line (x : xsline) : bytes :=
  if xs_num x =? 0 then []
  else
    let st := if xs_free x then B "f" else B "n" in
    let env := match xs_env x with Some e => if e =? 0 then None else Some e | None => None end in
    match env with
    | Some _ => B "<a href=""#obj" ++ dec (xs_num x) ++ B "." ++ dec (xs_gen x) ++ B ".0"">"
    | None => B "<a href=""#idx" ++ dec (xs_off x) ++ B """>"
    end ++ B "<span class=""obj-link"">#" ++ dec (xs_num x) ++ B " " ++ dec (xs_gen x) ++ B "</span>" ++ B "</a>" ++ B "    " ++
    match env with
    | Some e => B "In object stream " ++ dec e ++ B " at " ++ zpad 10 (xs_off x) ++ B " " ++ st ++ NL
    | None => B "At absolute position " ++ zpad 10 (xs_off x) ++ B " " ++ st ++ NL
    end.
Definition build_xref_stream (l : list xsline) : bytes :=
  NL ++ B "stream" ++ NL ++ NL ++ flat_map xref_stream_line l ++ NL ++ B "endstream" ++ NL.

(* display.py:586-593, 606-613 *)
Definition used_in (l : list (Z * option apos)) : bytes :=
  match l with
  | [] => []
  | _ => B "<em><span class=""c1"">                 used in " ++
         flat_map (fun np => B "<a href=""#idx" ++ pos_text (snd np) ++ B """>" ++ (if fst np =? 0 then B "trailer" else dec (fst np)) ++ B "</a> ") l ++
         B "</span></em>"
  end.
Definition obj_body : bytes := B "<div class=""obj-body b0"">" ++ NL.
(* display.py:558-615  build_obj_header, for an object *)
Definition over_text (e : ient) : res bytes := match n_over e with Some v => Ok (dec v) | None => Exc EKeyError end.
Definition obj_header (index : list (list slot)) (cross : cross_t) (pos : option apos) (embedded : option (Z * nat)) (num : Z) : res bytes :=
  match embedded with
  | None =>
      match pos with
      | Some (AInt p) =>
          let* c := of_opt EKeyError (cget pos cross) in
          let* rel := of_opt ETypeError (c_rel c) in
          let* row := pyget index (snd rel) in
          let* s := pyget row (fst rel) in
          let* e := as_dict s in
          let* over := over_text e in
          Ok (NL ++ B "<div class=""block"" id=""idx" ++ dec p ++ B """>" ++ NL ++
              B "<div id=""obj" ++ dec (fst rel) ++ B "." ++ dec (n_gen e) ++ B "." ++ over ++ B """>" ++ NL ++ B "<pre>" ++ NL ++
              B "<span class=""c1"">" ++ zpad 10 p ++ B "</span>" ++
              B "<span class=""obj-header b0""><strong>" ++ dec (fst rel) ++ B "</strong> " ++ dec (n_gen e) ++ B " obj</span>" ++
              used_in (c_used c) ++ obj_body)
      | _ => Ok obj_body
      end
  | Some (env, seq) =>
      let* c := of_opt EKeyError (cget pos cross) in
      Ok (NL ++ B "<div class=""block"" id=""idx" ++ pos_text pos ++ B """>" ++ NL ++
          B "<div id=""obj" ++ dec num ++ B ".0.0"">" ++ NL ++ B "<pre>" ++ NL ++
          B "<span class=""c1"">" ++ ljust 10 (dec env ++ B " #" ++ dec (Z.of_nat seq)) ++ B "</span>" ++
          B "<span class=""obj-header b0""><strong>" ++ dec num ++ B "</strong> 0 obj</span>" ++
          used_in (c_used c) ++ obj_body)
  end.
Definition table_header (pos : nat) : bytes :=
  NL ++ B "<div class=""block"" id=""idx" ++ dec (Z.of_nat pos) ++ B """>" ++ NL ++ B "<div>" ++ NL ++ B "<pre>" ++ NL ++
  B "<span class=""c1"">" ++ zpad 10 (Z.of_nat pos) ++ B "</span>" ++ B "<span class=""obj-header b0""><strong>XREF table & trailer</strong></span>" ++ obj_body.
(* display.py:618-624  build_obj_trailer *)
Definition obj_trailer : bytes := NL ++ B "</div>" ++ B "</pre>" ++ NL ++ B "</div>" ++ NL ++ B "</div>" ++ NL.
Definition endobj_text : bytes := NL ++ NL ++ B "endobj" ++ obj_trailer.

(* display.py:210-239 : the articles; ver is the revision of the last object shown (None while unbound) *)
Definition is_xref_stream (o : obj) : bool := match o with PStream d _ _ => type_is V_XRef d | _ => false end.
Fixpoint body (index : list (list slot)) (cross : cross_t) (ver : option Z) (l : list article) : res bytes :=
  match l with
  | [] => Ok []
  | ArStart pos v :: r => let* a := add_startxref pos v in let* b := body index cross ver r in Ok (a ++ b)
  | ArComment pos t :: r =>
      let* b := body index cross ver r in
      Ok ((if beqb t (B "%%EOF") then add_eof pos else add_comment pos t) ++ b)
  | ArObj pos emb num o :: r =>
      let* h := obj_header index cross pos emb num in
      let* c := of_opt EKeyError (cget pos cross) in
      let* rel := of_opt ETypeError (c_rel c) in
      let* row := pyget index (snd rel) in
      let* t := follow_obj row 0 (negb (is_xref_stream o)) o in
      let* b := body index cross (Some (snd rel)) r in
      Ok (h ++ t ++ (if is_xref_stream o then [] else endobj_text) ++ b)
  | ArTable pos lines tr :: r =>
      let* t := build_xref_table lines in
      let* v := of_opt EUnboundLocal ver in
      let* row := pyget index v in
      let* x := follow_obj row 0 true tr in
      let* b := body index cross ver r in
      Ok (table_header pos ++ t ++ NL ++ B "trailer" ++ NL ++ x ++ obj_trailer ++ b)
  | ArStream _ lines :: r => let* b := body index cross ver r in Ok (build_xref_stream lines ++ endobj_text ++ b)
  end.

(* display.py:251-266  build_nav_pages *)
Fixpoint page_links (row : list slot) (i : Z) (pages : list ref) : res bytes :=
  match pages with
  | [] => Ok []
  | (g, n) :: r =>
      let* s := pyget row n in
      let* e := as_dict s in
      let* over := over_text e in
      let* t := page_links row (i + 1) r in
      Ok (B " <a class=""nav-idx"" href=""#obj" ++ dec n ++ B "." ++ dec g ++ B "." ++ over ++ B """>" ++ dec i ++ B "</a>" ++ t)
  end.
Definition nav_pages (index : list (list slot)) (pages : list ref) : res bytes :=
  let* t := match pages with [] => Ok [] | _ => let* row := pyget index (-1) in page_links row 1 pages end in
  Ok (NL ++ B "<details class=""b3"">" ++ NL ++ B "<summary class=""title b3""><code> Pages</code></summary>" ++ NL ++
      B "<p class=""nav-y b2"">" ++ NL ++ t ++ B "</p>" ++ NL ++ B "</details>" ++ NL ++ NL).
(* display.py:269-299  build_nav_objects; {t}: the text of /Type when it is a str, a bytes or an
   int (another value is not modelled) *)
Definition bytes_repr (s : bytes) : bytes :=
  let q := if inb 39 s && negb (inb 34 s) then 34 else 39 in [98; q] ++ repr_body s ++ [q].
Definition type_text (d : dict) : res bytes :=
  match dget K_Type d with
  | None => Ok []
  | Some (PStr s) => Ok s
  | Some (PBytes s) => Ok (bytes_repr s)
  | Some (PInt z) => Ok (dec z)
  | Some _ => Exc EUnsupported
  end.
Fixpoint nav_items (l : list article) : res bytes :=
  match l with
  | [] => Ok []
  | ArTable pos _ _ :: r =>
      let* t := nav_items r in
      Ok (B "<li>" ++ B "<a class=""nav-idx"" href=""#idx" ++ dec (Z.of_nat pos) ++ B """>xref</a> XREF table & trailer" ++ B "</li>" ++ NL ++ t)
  | ArObj pos _ num o :: r =>
      let* ty := match o with PDict d | PStream d _ _ => type_text d | _ => Ok [] end in
      let* t := nav_items r in
      Ok (B "<li>" ++ B "<a class=""nav-idx"" href=""#idx" ++ pos_text pos ++ B """>" ++ dec num ++ B "</a> " ++ ty ++ B "</li>" ++ NL ++ t)
  | _ :: r => nav_items r
  end.
Definition nav_objects (l : list article) : res bytes :=
  let* t := nav_items l in
  Ok (NL ++ B "<details class=""b3"">" ++ NL ++ B "<summary class=""title b3""><code> Minimap</code></summary>" ++ NL ++
      B "<pre class=""nav-y b2"">" ++ NL ++ B "<ul>" ++ NL ++ t ++ B "</ul>" ++ NL ++ B "</pre>" ++ NL ++ B "</details>" ++ NL ++ NL).
(* display.py:302-315  build_nav_quick *)
Definition nav_quick : bytes :=
  NL ++ B "<details class=""b3"">" ++ NL ++ B "<summary class=""title b3""><code> Quick access</code></summary>" ++ NL ++
  B "<pre class=""b2"">" ++ NL ++ B "<ul>" ++ NL ++
  B "<li>&UpArrowBar; <a class=""header-button"" href=""#idx0"">Beginning</a></li>" ++ NL ++
  B "<li>&DownArrowBar; <a class=""header-button"" href=""#end"">End of file</a></li>" ++ NL ++
  B "</ul>" ++ B "</pre>" ++ NL ++ B "</details>" ++ NL ++ NL.
(* display.py:318-338  build_nav_info; info: the lines of the structure *)
Definition nav_info (info : list bytes) : bytes :=
  NL ++ B "<details class=""b3"">" ++ NL ++ B "<summary class=""title b3""><code> Info</code></summary>" ++ NL ++
  B "<pre class=""b2"">" ++ NL ++ B "<ul>" ++ flat_map (fun x => B " <li class="""">" ++ x ++ B "</li>") info ++
  B "</ul>" ++ NL ++ B "</pre>" ++ NL ++ B "</details>" ++ NL ++ NL.
(* display.py:357-367  build_header; os.path.basename *)
Fixpoint basename (s : bytes) : bytes :=
  match s with [] => [] | c :: r => if inb 47 s then basename r else s end.
Definition page_header (filename : bytes) : bytes :=
  B "<div class=""header b3"">" ++ NL ++ B "<pre>" ++ NL ++ basename filename ++ B " - " ++ B "internal view generated by " ++
  B "<a href=""https://pdfsyntax.dev"">PDFSyntax</a>" ++ NL ++ B "</pre>" ++ NL ++ B "</div>" ++ NL.
(* display.py:207-248  build_html *)
Definition build_html (l : list article) (index : list (list slot)) (cross : cross_t) (filename : bytes)
    (pages : list ref) (info : list bytes) : res bytes :=
  let* b := body index cross None l in
  let* np := nav_pages index pages in
  let* no := nav_objects l in
  Ok (HEADER ++ b ++ page_header filename ++ (NL ++ B "<nav class=""b2"">" ++ NL ++ NL) ++ nav_info info ++ np ++ no ++ nav_quick ++
      (NL ++ B "</nav>" ++ NL ++ NL) ++ TRAILER).

(* display.py:326-331  the lines of build_nav_info, from api.py:133-146 structure; a /Count that is
   neither an int nor a bytes is not modelled.  The paper size, which browse computes and does
   not print, is left out. *)
Definition count_text (o : obj) : res bytes :=
  match o with PInt z => Ok (dec z) | PBytes s => Ok (bytes_repr s) | _ => Exc EUnsupported end.
Definition yesno (b : bool) : bytes := if b then B "yes" else B "no".
Definition info_lines (ver count : bytes) (revs : Z) (hyb lin : bool) (size : Z) : list bytes :=
  [ljust 15 (B "Version: ") ++ ver; ljust 15 (B "Page(s): ") ++ count; ljust 15 (B "Revision(s): ") ++ dec revs;
   ljust 15 (B "Hybrid: ") ++ yesno hyb; ljust 15 (B "Linearized: ") ++ yesno lin; ljust 15 (B "File size: ") ++ dec size ++ B " bytes"].

Section WithZlib.
Context {ZL : Zlib}.
(* cli.py:401-411  file_map: the sections and the index *)
Definition file_sections (p : prov) : res (list article) :=
  let* items := file_object_map p in
  let* (t, _, _) := read_at p 0 (-1) in articles t items.
Definition file_index (fuel : nat) (p : prov) : res (list (list slot)) :=
  let* (chrono, nxt, nb) := build_xref_sequence fuel p in build_index chrono nxt nb.
(* the references of the pages: int(iref.imag) of another value is not modelled *)
Fixpoint page_refs (l : list (obj * dict)) : res (list ref) :=
  match l with
  | [] => Ok []
  | (PRef g n, _) :: r => let* t := page_refs r in Ok ((g, n) :: t)
  | _ => Exc EUnsupported
  end.
(* cli.py:414-425  browse: the page printed *)
Definition browse (fuel : nat) (p : prov) (filename : bytes) : res bytes :=
  let* size := bdata_length p in
  let* index := file_index fuel p in
  let* secs := file_sections p in
  let* cross := cross_map_index secs index in
  let* d := doc_constructor fuel p in
  let* (ver, d1) := version d in
  let* (count, d2) := number_pages d1 in
  let* ct := count_text count in
  let* hyb := hybrid d2 in
  let* lin := linearized p in
  let* (pgs, _, _) := flat_page_tree fuel d2 [] None in
  let* pl := of_opt ETypeError pgs in
  let* refs := page_refs pl in
  build_html secs index cross filename refs (info_lines ver ct (updates d2) hyb (match lin with Some _ => true | None => false end) size).
End WithZlib.

