(* Model of pdfsyntax/markdown.py: link, style, and the block parser behind render_html.
   Strings are lists of code points. The second renderer (transform, tokenize, render
   and their helpers) is in Model_MdTokens.v and Model_MdRender.v. *)
From Coq Require Import String.
From Verif Require Import PyBase Model_Objects Model_Filestruct.

(* s[a:b], with the Python treatment of negative and large bounds *)
Definition bound (s : bytes) (k : Z) : nat :=
  if k <? 0 then Z.to_nat (k + blen s) else Nat.min (Z.to_nat k) (length s).
Definition slice (s : bytes) (a b : Z) : bytes := sub s (bound s a) (bound s b).
(* s.find(p, i), -1 when there is none *)
Definition zfind (p s : bytes) (i : Z) : Z := match find p s (Z.to_nat i) with Some k => Z.of_nat k | None => -1 end.

Definition L_mid := Eval vm_compute in B "](".
Definition L_open := Eval vm_compute in B "[".
Definition L_close := Eval vm_compute in B ")".
Definition L_md := Eval vm_compute in B ".md".
Definition L_html := Eval vm_compute in B ".html".
Definition T_img := Eval vm_compute in B "<img src='".
Definition T_alt := Eval vm_compute in B "' alt='".
Definition T_endimg := Eval vm_compute in B "'>".
Definition T_a := Eval vm_compute in B "<a href='".
Definition T_mida := Eval vm_compute in B "'>".
Definition T_enda := Eval vm_compute in B "</a>".

(* l[-3:] == '.md' and l[:-3] + '.html' *)
Definition page_url (l : bytes) : bytes :=
  if beqb (slice l (-3) (blen l)) L_md then slice l 0 (-3) ++ L_html else l.

(* markdown.py:26-52  link; i and j move together *)
Fixpoint link_loop (fuel : nat) (s : bytes) (i j : Z) (acc : bytes) : res bytes :=
  match fuel with
  | O => Loop
  | S fuel' =>
      if i <? blen s then
        let f := zfind L_mid s i in
        if f =? -1 then Ok (acc ++ slice s j (blen s))
        else
          let b1 := zfind L_open s i + 1 in
          let p1 := f + 2 in
          let p2 := zfind L_close s f + 1 in
          let* c := pyget s (b1 - 2) in
          let acc' :=
            if c =? 33 then
              acc ++ slice s i (b1 - 2) ++ T_img ++ slice s p1 (p2 - 1) ++ T_alt ++ slice s b1 f ++ T_endimg
            else
              acc ++ slice s i (b1 - 1) ++ T_a ++ page_url (slice s p1 (p2 - 1)) ++ T_mida ++ slice s b1 f ++ T_enda in
          link_loop fuel' s p2 p2 acc'
      else Ok (acc ++ slice s j (blen s))
  end.
Definition link (fuel : nat) (s : bytes) : res bytes := link_loop fuel s 0 0 [].

(* markdown.py:55-104  style; search is None for 'TBD' *)
Definition T_code := Eval vm_compute in B "<code>".
Definition T_endcode := Eval vm_compute in B "</code>".
Definition T_em := Eval vm_compute in B "<em>".
Definition T_endem := Eval vm_compute in B "</em>".
Definition T_strong := Eval vm_compute in B "<strong>".
Definition T_endstrong := Eval vm_compute in B "</strong>".
Definition emphasis (n : nat) (t : bytes) : bytes :=
  match n with
  | 1%nat => T_em ++ t ++ T_endem
  | 2%nat => T_strong ++ t ++ T_endstrong
  | 3%nat => T_em ++ T_strong ++ t ++ T_endstrong ++ T_endem
  | _ => []
  end.
Record sstate := mk_ss { ss_i : nat; ss_cur : nat; ss_accu : bool; ss_search : option bytes; ss_res : bytes }.
Definition isstar (c : Z) : bool := (c =? 42) || (c =? 95).
(* one turn of the loop, before [i += 1] *)
Definition style_turn (s : bytes) (st : sstate) : sstate :=
  let i := ss_i st in
  let c := nth i s 0 in
  let p := if Nat.ltb 0 i then nth (i - 1) s 0 else 32 in
  match ss_search st with
  | None =>
      if c =? 96 then mk_ss i i (ss_accu st) (Some [96]) (ss_res st ++ sub s (ss_cur st) i)
      else if (c =? 42) || (inb p [32; 91; 62] && (c =? 95)) then
        mk_ss i i true (Some [c]) (ss_res st ++ sub s (ss_cur st) i)
      else st
  | Some q =>
      if beqb q [96] then
        if c =? 96 then mk_ss i (S i) (ss_accu st) None (ss_res st ++ T_code ++ sub s (ss_cur st + 1) i ++ T_endcode)
        else st
      else if ss_accu st then
        if isstar c then mk_ss i (ss_cur st) true (Some (q ++ [c])) (ss_res st)
        else mk_ss i (ss_cur st) false (Some q) (ss_res st)
      else
        if isstar c then
          (* len(search) is the length of 'TBD' when i is moved *)
          mk_ss (i + 2)%nat (i + length q)%nat false None (ss_res st ++ emphasis (length q) (sub s (ss_cur st + length q) i))
        else st
  end.
Fixpoint style_loop (fuel : nat) (s : bytes) (st : sstate) : bytes :=
  match fuel with
  | O => ss_res st
  | S fuel' =>
      if Nat.ltb (ss_i st) (length s) then
        let st1 := style_turn s st in
        let i := S (ss_i st1) in
        style_loop fuel' s (mk_ss i (ss_cur st1) (ss_accu st1) (ss_search st1)
          (if Nat.eqb i (length s) then ss_res st1 ++ sub s (ss_cur st1) i else ss_res st1))
      else ss_res st
  end.
(* the number of turns is at most the length of the string *)
Definition style (s : bytes) : bytes := style_loop (S (length s)) s (mk_ss 0 0 false None []).

(* markdown.py:250-252  tags *)
Definition tags (fuel : nat) (s : bytes) : res bytes := let* l := link fuel s in Ok (style l).
(* markdown.py:255-259  entities *)
Definition entities (s : bytes) : bytes :=
  flat_map (fun c => if c =? 60 then [38; 108; 116; 59] else if c =? 62 then [38; 103; 116; 59] else [c]) s.

(* markdown.py:5-23  indentation_and_first_token *)
Fixpoint word (s : bytes) : bytes := match s with [] => [] | c :: r => if c =? 32 then [] else c :: word r end.
Fixpoint indent_loop (rest : bytes) (i : nat) (skip : nat) (quote : bool) : nat :=
  match rest with
  | [] => (i + skip)%nat
  | c :: r =>
      match skip with
      | S k => indent_loop r (S i) k quote
      | O =>
          if c =? 32 then indent_loop r (S i) 0 quote
          else if c =? 62 then indent_loop r (S i) 0 true
          else if c =? 9 then indent_loop r (S i) 3 quote
          else if quote then pred i else i
      end
  end.
Definition indentation_and_first_token (s : bytes) : nat * bytes :=
  let i := indent_loop s 0 0 false in (i, word (skipn i s)).

(* the tree of ('TYPE', [content]) tuples; the type is kept in lower case *)
Inductive mdnode := MdText (s : bytes) | MdTag (t : bytes) (l : list mdnode).
Definition strip_cr (s : bytes) : bytes := strip [13] s.
Definition truthy_b (s : bytes) : bool := match s with [] => false | _ => true end.
Definition all_eq (c : Z) (s : bytes) : bool := forallb (Z.eqb c) s.
Definition line_at (lines : list bytes) (i : nat) : bytes := nth i lines [].

(* markdown.py:107-124  parse_code_block *)
Fixpoint code_lines (fenced : bool) (lines : list bytes) (i : nat) : nat * list mdnode :=
  match lines with
  | [] => (i, [])
  | l :: r =>
      let ln := strip_cr l in
      let go := if fenced then negb (starts [96; 96; 96] (ln ++ [10])) else Nat.eqb (fst (indentation_and_first_token ln)) 4 in
      if go then let (k, res) := code_lines fenced r (S i) in (k, MdText (ln ++ [10]) :: res) else (i, [])
  end.
Definition parse_code_block (fenced : bool) (lines : list bytes) (i : nat) := code_lines fenced (skipn i lines) i.

(* markdown.py:127-145  parse_title; start is i - 1 when underlined, where -1 is the last line *)
Definition H_n (n : nat) : bytes := 104 :: dec (Z.of_nat n).
Definition parse_title_under (lines : list bytes) (i : nat) : bytes * list mdnode :=
  let ln := strip_cr (match i with O => last lines [] | S k => line_at lines k end) in
  let u := firstn 2 (line_at lines i) in
  ((if beqb u [61; 61] then B "h1" else if beqb u [45; 45] then B "h2" else []), [MdText ln]).
Definition parse_title_prefix (lines : list bytes) (i : nat) : bytes * list mdnode :=
  let ln := strip_cr (line_at lines i) in
  let n := length (snd (indentation_and_first_token ln)) in
  (H_n n, [MdText (skipn (n + 1) ln)]).

(* markdown.py:148-172  parse_list *)
Definition is_bullet (bs : bytes) : bool := beqb bs [42] || beqb bs [43] || beqb bs [45].
Definition ends_dot (bs : bytes) : bool := match bs with [] => false | _ => last bs 0 =? 46 end.
Fixpoint list_lines (ordered : bool) (ref : nat) (lines : list bytes) (i : nat) : nat * list mdnode :=
  match lines with
  | [] => (i, [])
  | l :: r =>
      let ln := strip_cr l in
      let (indent, bs) := indentation_and_first_token ln in
      if (if ordered then ends_dot bs else is_bullet bs) && Nat.eqb indent ref then
        let (k, res) := list_lines ordered ref r (S i) in
        (k, MdTag (B "li") [MdText (skipn (indent + length bs + 1) ln)] :: res)
      else (i, [])
  end.
Definition parse_list (ordered : bool) (lines : list bytes) (i : nat) :=
  list_lines ordered (fst (indentation_and_first_token (line_at lines i))) (skipn i lines) i.

(* markdown.py:175-199  parse_table *)
Fixpoint split_on (c : Z) (s : bytes) : list bytes :=
  match s with
  | [] => [[]]
  | a :: r => if a =? c then [] :: split_on c r
              else match split_on c r with x :: l => (a :: x) :: l | [] => [[a]] end
  end.
Definition table_cells (tag : bytes) (ln : bytes) (indent : nat) : list mdnode :=
  map (fun td => MdTag tag [MdText td]) (removelast (tl (split_on 124 (skipn indent ln)))).
(* row[0][1][0][1:3] == '--' *)
Definition dashes (row : list mdnode) : res bool :=
  match row with
  | MdTag _ (MdText t :: _) :: _ => Ok (beqb (sub t 1 3) [45; 45])
  | _ => Exc EIndexError
  end.
Fixpoint table_lines (ref : nat) (lines : list bytes) (i : nat) : res (nat * list mdnode) :=
  match lines with
  | [] => Ok (i, [])
  | l :: r =>
      let ln := strip_cr l in
      let (indent, bs) := indentation_and_first_token ln in
      if starts [124] bs && Nat.eqb indent ref then
        let row := table_cells (B "td") ln indent in
        let* dd := dashes row in
        let* (k, res) := table_lines ref r (S i) in
        Ok (k, if dd : bool then res else MdTag (B "tr") row :: res)
      else Ok (i, [])
  end.
Definition parse_table (lines : list bytes) (i : nat) : res (nat * list mdnode) :=
  let ref := fst (indentation_and_first_token (line_at lines i)) in
  let ln := strip_cr (line_at lines i) in
  let (indent, bs) := indentation_and_first_token ln in
  if starts [124] bs && Nat.eqb indent ref then
    let* (k, body) := table_lines ref (skipn (S i) lines) (S i) in
    Ok (k, [MdTag (B "thead") [MdTag (B "tr") (table_cells (B "th") ln indent)]; MdTag (B "tbody") body])
  else Ok (i, [MdTag (B "tbody") []]).

(* markdown.py:202-207  flush_p *)
Definition flush_p (b : list bytes) : list mdnode := match b with [] => [] | _ => [MdTag (B "p") [MdText (concat b)]] end.

(* markdown.py:210-247  parse_markdown; b is the paragraph being collected *)
Definition br_tag := Eval vm_compute in B "<br>".
Fixpoint md_loop (fuel : nat) (lines : list bytes) (start : nat) (i : nat) (b : list bytes) (blocks : list mdnode)
  : res (list mdnode * nat) :=
  match fuel with
  | O => Loop
  | S fuel' =>
      if Nat.ltb i (length lines) then
        let line := line_at lines i in
        let ln := strip_cr line in
        let (indent, bs) := indentation_and_first_token ln in
        let flushed := blocks ++ flush_p b in
        if Nat.ltb (indent + 1) start then Ok (flushed, i)
        else if negb (truthy_b bs) && Nat.ltb 0 indent && Nat.ltb start (indent + 1) then
          let* (sub, k) := md_loop fuel' lines (indent + 1) i [] [] in
          md_loop fuel' lines start (k + 1) [] (flushed ++ [MdTag (B "blockquote") sub])
        else if starts [96; 96; 96] bs then
          let (k, r) := parse_code_block true lines (i + 1) in
          md_loop fuel' lines start (k + 1) [] (flushed ++ [MdTag (B "pre") r])
        else if truthy_b bs && Nat.leb 4 indent then
          let (k, r) := parse_code_block false lines i in
          md_loop fuel' lines start (k + 1) [] (flushed ++ [MdTag (B "pre") r])
        else if truthy_b ln && (all_eq 61 ln || all_eq 45 ln) then
          let (t, r) := parse_title_under lines i in
          md_loop fuel' lines start (i + 1) [] (blocks ++ [MdTag t r])
        else if truthy_b bs && all_eq 35 bs then
          let (t, r) := parse_title_prefix lines i in
          md_loop fuel' lines start (i + 1) [] (flushed ++ [MdTag t r])
        else if is_bullet bs then
          let (k, r) := parse_list false lines i in
          md_loop fuel' lines start (k + 1) [] (flushed ++ [MdTag (B "ul") r])
        else if ends_dot bs && (48 <=? hd 0 bs) && (hd 0 bs <=? 57) then
          let (k, r) := parse_list true lines i in
          md_loop fuel' lines start (k + 1) [] (flushed ++ [MdTag (B "ol") r])
        else if beqb bs [124] then
          let* (k, r) := parse_table lines i in
          md_loop fuel' lines start (k + 1) [] (flushed ++ [MdTag (B "table") r])
        else if match b with [] => false | _ => negb (truthy_b ln) end then
          md_loop fuel' lines start (i + 1) [] flushed
        else
          let b1 := b ++ [skipn indent line] ++ (if beqb (slice ln (-2) (blen ln)) [32; 32] then [br_tag] else []) in
          md_loop fuel' lines start (i + 1) b1 blocks
      else Ok (blocks, i)
  end.
Definition parse_markdown (fuel : nat) (lines : list bytes) : res (list mdnode * nat) := md_loop fuel lines 0 0 [] [].

(* markdown.py:262-276  assemble_html, with the fuel of link *)
Fixpoint assemble (fuel : nat) (pre : bool) (n : mdnode) : res bytes :=
  match n with
  | MdText s => if pre then Ok (entities s) else tags fuel s
  | MdTag t l =>
      let* b := (fix go (l : list mdnode) : res bytes :=
                   match l with
                   | [] => Ok []
                   | x :: r => let* a := assemble fuel (beqb t (B "pre")) x in let* c := go r in Ok (a ++ c)
                   end) l in
      Ok ([60] ++ t ++ [62] ++ b ++ [60; 47] ++ t ++ [62; 10])
  end.
Fixpoint assemble_html (fuel : nat) (l : list mdnode) : res bytes :=
  match l with
  | [] => Ok []
  | x :: r => let* a := assemble fuel false x in let* c := assemble_html fuel r in Ok (a ++ c)
  end.
(* markdown.py:279-284  render_html *)
Definition render_html (fuel : nat) (md : bytes) : res bytes :=
  let* (ast, _) := parse_markdown fuel (split_on 10 md) in assemble_html fuel ast.
