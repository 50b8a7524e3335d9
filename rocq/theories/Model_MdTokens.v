(* Model of the second markdown renderer: tokenize and its helpers (markdown.py:302-367 and
   560-651). Strings are lists of code points. tokenize_new, html_text_new (unfinished, with
   prints) are not modelled; render is in Model_MdRender.v. *)
From Coq Require Import String.
From Verif Require Import PyBase Model_Objects Model_Filestruct Model_Markdown.

(* c = md.find('\n', i); eol = c if c != -1 else len(md) *)
Definition line_end (md : bytes) (i : Z) : Z := let c := zfind [10] md i in if c =? -1 then blen md else c.
(* md[i] for 0 <= i *)
Definition char_at (md : bytes) (i : Z) : res Z := of_opt EIndexError (nth_error md (Z.to_nat i)).

(* markdown.py:625-651  check_hr *)
Fixpoint hr_loop (l toks : bytes) : option bytes :=
  match l with
  | [] => Some toks
  | c :: r =>
      match toks with
      | [] => if inb c [42; 95; 45] then hr_loop r [c] else if c =? 32 then hr_loop r [] else None
      | t :: _ => if negb (c =? 32) && negb (c =? t) then None
                  else if inb c toks then hr_loop r (toks ++ [c]) else hr_loop r toks
      end
  end.
Definition check_hr (md : bytes) (start : Z) : bool * Z :=
  let eol := line_end md start in
  match hr_loop (slice md start eol) [] with
  | None => (false, -1)
  | Some toks => (Nat.leb 3 (length toks), line_end md (Z.max start eol))
  end.

(* markdown.py:560-573  str_between_spaces_tabs_nls *)
Definition is_blank (c : Z) : bool := inb c [32; 9; 10].
Fixpoint word_loop (l : bytes) (i : Z) (acc : bytes) : bytes * Z :=
  match l with
  | [] => (acc, i)
  | c :: r => if is_blank c then match acc with [] => word_loop r (i + 1) [] | _ => (acc, i) end
              else word_loop r (i + 1) (acc ++ [c])
  end.
Definition str_between (md : bytes) (start stop : Z) : bytes * Z := word_loop (slice md start stop) start [].

(* md.find(c, i, j), -1 when there is none *)
Definition zfind_in (c : Z) (md : bytes) (i j : Z) : Z :=
  match find_from [c] (slice md i j) 0 with Some k => i + Z.of_nat k | None => -1 end.
(* markdown.py:576-622  check_link_id; None is (False, False, False, -1) *)
Definition second_end (md : bytes) (i : Z) : Z := line_end md (zfind [10] md i + 1).
Definition unquoted (l r : bytes) (s : bytes) : option bytes :=
  match s with
  | [] => None
  | c :: _ => if inb c l && inb (last s 0) r then Some (slice s 1 (-1)) else None
  end.
Definition check_link_id (md : bytes) (start : Z) : res (option (bytes * bytes * bytes * Z)) :=
  let* c0 := char_at md start in
  if negb (inb c0 [32; 91]) then Ok None else
  let c := zfind_in 91 md start (start + 4) in
  if (c =? -1) || negb (beqb (slice md start c) (repeat 32 (Z.to_nat (c - start)))) then Ok None else
  let i := c + 1 in
  let c := zfind_in 93 md i (line_end md i) in
  if c =? -1 then Ok None else
  let link_id := slice md i c in
  let i := c + 1 in
  let* c1 := char_at md i in
  if negb (c1 =? 58) then Ok None else
  let i := i + 1 in
  let* c2 := char_at md i in
  if negb (is_blank c2) then Ok None else
  let '(url, i) := str_between md i (second_end md i) in
  let url := match unquoted [60] [62] url with Some u => u | None => url end in
  let '(title, i) := str_between md i (second_end md i) in
  let eol := line_end md i in
  match title with
  | [] => Ok (Some (link_id, url, [], eol))
  | _ => match unquoted [34; 40] [34; 41] title with
         | Some t => Ok (Some (link_id, url, t, eol))
         | None => Ok None
         end
  end.

(* markdown.py:309-367  tokenize *)
Definition all_of (c : Z) (s : bytes) : bool := truthy_b s && forallb (Z.eqb c) s.
Definition marks : bytes := Eval vm_compute in 10 :: B "[]()-+.>*_`".
Definition is_empty {A} (l : list A) : bool := match l with [] => true | _ => false end.
Definition extend_last (line : list bytes) (c : Z) : list bytes := removelast line ++ [last line [] ++ [c]].
(* 328-361: the current token, the tokens of the line, inside a tag or not *)
Definition tok_char (tok : bytes) (line : list bytes) (html : bool) (c : Z) : res (bytes * list bytes * bool) :=
  if (c =? 60) || html then Ok (tok ++ [c], line, negb (c =? 62))
  else if negb (c =? 35) && is_empty line && all_of 35 tok then Ok (if c =? 32 then [] else [c], line ++ [tok], html)
  else if negb (c =? 32) && is_empty line && all_of 32 tok then
    Ok ([c], if Nat.leb 4 (length tok) then line ++ [tok] else line, html)
  else if (c =? 45) && negb (is_empty line) && all_of 45 (last line []) then Ok (tok, extend_last line c, html)
  else if (c =? 96) && negb (is_empty line) && is_empty tok && (beqb (last line []) [96] || beqb (last line []) [96; 96]) then
    Ok (tok, extend_last line c, html)
  else if inb c [42; 95] && negb (is_empty line) && inb (last (last line []) 0) [42; 95] && is_empty tok then
    Exc EUnboundLocal (* 351: NameError, the name t is not defined *)
  else if inb c marks then Ok ([], line ++ (if truthy_b tok then [tok] else []) ++ [[c]], html)
  else Ok (tok ++ [c], line, html).
(* 363-373: the end of a line *)
Definition tok_line (res : list (list bytes)) (line : list bytes) : list (list bytes) * list bytes :=
  if negb (is_empty line) && beqb (last line []) [10] then
    let line := removelast line in
    if negb (is_empty line) && all_of 61 (last line []) then (removelast res ++ [[35] :: last res []], [])
    else if negb (is_empty line) && all_of 45 (last line []) then (removelast res ++ [[35; 35] :: last res []], [])
    else (res ++ [if is_empty line then [[]] else line], [])
  else (res, line).
Definition T_hr := Eval vm_compute in B "<hr />".
Definition links := list (bytes * (bytes * bytes * Z)).
Definition link_set (k : bytes) (v : bytes * bytes * Z) (l : links) : links :=
  if existsb (fun p => beqb (fst p) k) l then map (fun p => if beqb (fst p) k then (k, v) else p) l else l ++ [(k, v)].
Fixpoint tok_loop (fuel : nat) (md : bytes) (i : Z) (tok : bytes) (line : list bytes) (html : bool) (res : list (list bytes)) (ls : links)
  : PyBase.res (list (list bytes) * links) :=
  match fuel with
  | O => Loop
  | S f =>
    if negb (i <? blen md) then Ok (res ++ [[[]]], ls) else
    let* c := char_at md i in
    let bol := (i =? 0) || match nth_error md (Z.to_nat (i - 1)) with Some x => x =? 10 | None => false end in
    let* k := if bol then check_link_id md i else Ok None in
    match k with
    | Some ((_ :: _) as link_id, url, title, e) => tok_loop f md e tok line html res (link_set link_id (url, title, e) ls)
    | _ =>
      let '(hr, e) := if bol then check_hr md i else (false, -1) in
      if hr then tok_loop f md e tok line html (res ++ [[T_hr]]) ls else
      let* (tok', line', html') := tok_char tok line html c in
      let (res', line'') := tok_line res line' in
      tok_loop f md (i + 1) tok' line'' html' res' ls
    end
  end.
Definition tokenize (md : bytes) : res (list (list bytes) * links) :=
  tok_loop (S (length md)) md 0 [] [] false [[[]]; [[]]] [].
