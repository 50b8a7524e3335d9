(* Model of the second markdown renderer: transform, render and their helpers
   (markdown.py:302-306, 475-557, 654-792). The line printed by each turn of render is left
   out (its f-string is accepted by Python 3.12 and later only). *)
From Coq Require Import String.
From Verif Require Import PyBase Model_Objects Model_Filestruct Model_Markdown Model_MdTokens.

(* t in s for strings *)
Definition occurs_in (t s : bytes) : bool := match find t s 0 with Some _ => true | None => false end.
Definition one_of (s : bytes) (l : list bytes) : bool := existsb (beqb s) l.
Definition size_of {A} (l : list A) : Z := Z.of_nat (length l).
Definition N_p := Eval vm_compute in B "p".
Definition N_li := Eval vm_compute in B "li".
Definition N_ul := Eval vm_compute in B "ul".
Definition N_blockquote := Eval vm_compute in B "blockquote".
Definition N_fenced := Eval vm_compute in B "fenced".
Definition N_indented := Eval vm_compute in B "indented".
Definition N_code := Eval vm_compute in B "code".
Definition N_em := Eval vm_compute in B "em".
Definition N_strong := Eval vm_compute in B "strong".
Definition N_a := Eval vm_compute in B "a".
Definition N_img := Eval vm_compute in B "img".
Definition N_obj := Eval vm_compute in B "obj".
Definition N_url := Eval vm_compute in B "url".
Definition N_link_id := Eval vm_compute in B "link_id".
Definition N_hr := Eval vm_compute in B "hr /".
Definition is_fence (t : bytes) : bool := beqb t (B "```") || beqb t (B "~~~").

(* markdown.py:475-517  put_line_in_context: where the line goes on (bol) and the number of
   the first element of the stack that it closes (-1 for none) *)
Fixpoint ctx_loop (size : nat) (line : list bytes) (stack : list bytes) (j k : Z) : Z * Z :=
  match stack with
  | [] => (j, k)
  | e :: r =>
      if negb (j <? size_of line) then (j, k) else
      let t := nth (Z.to_nat j) line [] in
      let go j := ctx_loop size line r (j + 1) (k + 1) in
      if hd 0 e =? 117 then (if is_empty t then (j, k) else go (j - 1))
      else if beqb e N_li then
        (if occurs_in t (B "-*+") then
           if (0 <? j) && (blen (nth (Z.to_nat (j - 1)) line []) <? 2 * Z.of_nat size) then (j, k) else go (j - 1)
         else go j)
      else if beqb e N_blockquote then (if beqb t (B ">") then go j else (j, k))
      else if hd 0 e =? 104 then (j, k)
      else if beqb e N_fenced then (if is_fence t then (j - 1, k) else go j)
      else if beqb e N_indented then (if beqb t (B "    ") then go j else (j - 1, k))
      else if hd 0 e =? 112 then (if one_of t [[]; B "#"; B "##"] then (j, k) else go j)
      else (j, k)
  end.
Definition put_line_in_context (stack line : list bytes) : Z * Z :=
  let '(j, k) := ctx_loop (length stack) line stack 0 0 in
  (if size_of line - 1 <? j then 0 else j, if size_of stack <=? k then -1 else k).

(* markdown.py:520-543  detect_new_block *)
Definition detect_new_block (tok : bytes) (stack : list bytes) : option bytes * Z :=
  let top := last stack [] in
  if negb (is_empty stack) && one_of top [N_indented; N_fenced; N_code] then (None, 0)
  else if all_of 35 tok then (Some (104 :: dec (blen tok)), 1)
  else if is_fence tok then (Some N_fenced, 1)
  else if beqb tok (B "    ") then (Some N_indented, 1)
  else if beqb tok (B ">") then (Some N_blockquote, 1)
  else if negb (is_empty stack) && beqb (firstn 2 top) N_ul && occurs_in tok (B "-*+") then (Some N_li, 1)
  else if (is_empty stack || negb (beqb (firstn 2 top) N_ul)) && truthy_b tok && occurs_in tok (B "*+-") then (Some N_ul, 0)
  else if beqb tok T_hr then (Some N_hr, 1)
  else if is_empty stack && truthy_b tok then (Some N_p, 0)
  else (None, 0).

(* markdown.py:654-685  detect_new_or_closing_span; stack[-1] of an empty stack fails *)
Inductive span_act := SOpen (e : bytes) (off : Z) | SClose (e : bytes) (off : Z) | SNothing.
Definition detect_span (tok : bytes) (stack : list bytes) (prev : bytes) : res span_act :=
  let top := if is_empty stack then Exc EIndexError else Ok (last stack []) in
  let styled e := let* t := top in Ok (if beqb e t then SClose e 1 else SOpen e 1) in
  if negb (is_empty stack) && beqb (last stack []) N_url && negb (beqb tok (B ")")) then Ok SNothing
  else if beqb tok (B "`") then styled N_code
  else if beqb tok (B "_") then styled N_em
  else if beqb tok (B "__") then styled N_strong
  else if beqb tok (B "!") then Ok (SOpen N_img 1)
  else if beqb tok (B "[") then
    if beqb prev (B "]") then Ok (SOpen N_link_id 1)
    else let* t := top in if one_of t [N_a; N_img] then Ok (SOpen N_obj 1) else Ok (SOpen N_a 0)
  else if beqb tok (B "]") then
    let* t := top in
    if beqb t N_obj then Ok (SClose N_obj 1)
    else if beqb t N_link_id then Ok (SClose N_link_id 0)
    else if beqb t N_a then Ok (SClose N_a 1) else Ok SNothing
  else if beqb tok (B "(") then let* t := top in Ok (if beqb t N_a then SOpen N_url 1 else SNothing)
  else if beqb tok (B ")") then
    let* t := top in
    Ok (if beqb t N_url then SClose N_url 0 else if beqb t N_a then SClose N_a 1 else SNothing)
  else if beqb tok (B ")]") then let* t := top in Ok (if beqb t N_a then SClose N_a 1 else SNothing)
  else Ok SNothing.

(* an element of accu: a text, or the dictionary of a link *)
Inductive node_acc := NText (t : bytes) | NLink (url : bytes) (title obj : option bytes).
(* markdown.py:688-703  html_text; the text of a dictionary is not modelled *)
Definition html_text (e : bytes) (c : node_acc) : res bytes :=
  let block := if inb (hd 0 e) (B "phbuo") then [10] else [] in
  if one_of e [N_fenced; N_indented] then
    match c with NText t => Ok ([10] ++ B "<pre><code>" ++ t ++ B "</code></pre>") | NLink _ _ _ => Exc EUnsupported end
  else if one_of e [N_a; N_img] then
    match c with
    | NText _ => Exc ETypeError
    | NLink u ti ob =>
        let* o := of_opt EKeyError ob in
        Ok (B "<" ++ e ++ B " href=""" ++ u ++ B """" ++ match ti with Some t => B " title=""" ++ t ++ B """" | None => [] end ++ B ">" ++ o ++ B "</" ++ e ++ B ">")
    end
  else if beqb e N_hr then Ok (block ++ B "<" ++ e ++ B ">")
  else match c with NText t => Ok (block ++ B "<" ++ e ++ B ">" ++ t ++ B "</" ++ e ++ B ">") | NLink _ _ _ => Exc EUnsupported end.

(* accu[-1] += s *)
Definition append_text (accu : list node_acc) (s : bytes) : res (list node_acc) :=
  match last accu (NText []) with
  | NText t => Ok (removelast accu ++ [NText (t ++ s)])
  | NLink _ _ _ => Exc ETypeError
  end.
Fixpoint split_quote (s : bytes) : list bytes :=
  match s with [] => [[]] | c :: r => if c =? 34 then [] :: split_quote r else match split_quote r with h :: t => (c :: h) :: t | [] => [[c]] end end.
(* markdown.py:770-783: what a closing element does to accu, and to j *)
Definition close_span (e : bytes) (acc : list node_acc) (lst : node_acc) : res (list node_acc * Z) :=
  if beqb e N_obj then
    match last acc (NText []), lst with
    | NLink u ti _, NText o => Ok (removelast acc ++ [NLink u ti (Some o)], 0)
    | NLink _ _ _, NLink _ _ _ => Exc EUnsupported
    | NText _, _ => Exc ETypeError
    end
  else if beqb e N_url then
    match lst, last acc (NText []) with
    | NText s, NLink u ti ob =>
        match split_quote s with
        | x :: y :: _ => Ok (removelast acc ++ [NLink (u ++ removelast x) (Some y) ob], -1)
        | x :: _ => Ok (removelast acc ++ [NLink (u ++ x) ti ob], -1)
        | [] => Exc EIndexError
        end
    | NText _, NText _ => Exc ETypeError
    | NLink _ _ _, _ => Exc EAttributeError
    end
  else if beqb e N_link_id then Ok (acc, 0)
  else let* h := html_text e lst in let* a := append_text acc h in Ok (a, 0).

Record rstate := mk_rs { r_i : nat; r_j : Z; r_stack : list bytes; r_cps : list (nat * Z); r_accu : list node_acc; r_ctx : bool; r_skip : bool }.
(* markdown.py:706-792  one turn of render; end_turn is its last part (787-790).
   list_indent is written and never used in a decision. *)
Definition end_turn (line : list bytes) (s : rstate) : rstate :=
  if size_of line <=? r_j s then mk_rs (S (r_i s)) 0 (r_stack s) (r_cps s) (r_accu s) false (r_skip s) else s.
Definition render_turn (line : list bytes) (s : rstate) : res rstate :=
  let '(mk_rs i j stack cps accu ctx skip) := s in
  let '(j, k) := if ctx then (j, -1) else put_line_in_context stack line in
  if negb ctx && (0 <=? k) && (k <=? size_of stack - 1) then
    let '(i, j) := if j <? 0 then (S i, j) else (i, 0) in
    let e := last stack [] in
    let lst := last accu (NText []) in
    let accu := removelast accu in
    let* accu := if one_of e [N_a; N_obj; N_url] then Ok accu else let* h := html_text e lst in append_text accu h in
    if beqb e N_a then let '(i, j) := last cps (O, 0) in Ok (mk_rs i j (removelast stack) (removelast cps) accu ctx true)
    else Ok (mk_rs i j (removelast stack) (removelast cps) accu ctx skip)
  else
    let tok := if j <? size_of line then nth (Z.to_nat j) line [] else [] in
    let prev := if 0 <? j then nth (Z.to_nat (j - 1)) line [] else [] in
    match detect_new_block tok stack with
    | (Some e, off) => Ok (end_turn line (mk_rs i (j + off) (stack ++ [e]) (cps ++ [(i, j + off)]) (accu ++ [NText []]) true skip))
    | (None, _) =>
        let* a := detect_span tok stack prev in
        match a, skip with
        | SOpen e off, false =>
            Ok (mk_rs i (j + off) (stack ++ [e]) (cps ++ [(i, j)]) (accu ++ [if one_of e [N_a; N_img] then NLink [] None None else NText []]) ctx skip)
        | SClose e off, false =>
            let e := last stack [] in
            let* (accu, d) := close_span e (removelast accu) (last accu (NText [])) in
            Ok (mk_rs i (j + off + d) (removelast stack) (removelast cps) accu ctx skip)
        | _, _ =>
            if is_empty stack then Ok (end_turn line (mk_rs i (j + 1) stack cps accu ctx skip))
            else
              let* accu := if one_of (last stack []) [N_a; N_img] then Ok accu
                           else append_text accu (tok ++ if beqb (last stack []) N_p && (j =? size_of line - 1) then [10] else []) in
              Ok (end_turn line (mk_rs i (j + 1) stack cps accu true false))
        end
    end.
Fixpoint render_loop (fuel : nat) (toks : list (list bytes)) (s : rstate) : res bytes :=
  match fuel with
  | O => Loop
  | S f =>
    match nth_error toks (r_i s) with
    | Some line =>
        if r_j s <=? size_of line then let* s' := render_turn line s in render_loop f toks s'
        else match r_accu s with NText t :: _ => Ok t | _ => Exc EIndexError end
    | None => match r_accu s with NText t :: _ => Ok t | _ => Exc EIndexError end
    end
  end.
Definition render (fuel : nat) (toks : list (list bytes)) : res bytes :=
  render_loop fuel toks (mk_rs 2 0 [] [] [NText []] true false).
(* markdown.py:302-306  transform *)
Definition transform (fuel : nat) (md : bytes) : res bytes := let* (t, _) := tokenize md in render fuel t.
