(* The second markdown renderer: C115, C116, C117 *)
From Coq Require Import String.
From Verif Require Import PyBase Model_Objects Model_Filestruct Model_Markdown Model_MdTokens Model_MdRender Spec_MdTokens Spec_MdRender Spec_MdTitles.
From Verif Require Facts_Chain.
From Verif Require Import Facts_Base Facts_MdTokens Facts_MdRender Facts_MdTitles.
From Coq Require Import ZifyBool ZifyNat.

(* ---- C115 ---- *)
Theorem C115_rule : forall md pre l, line_in md pre l ->
  exists b e, check_hr md (blen pre) = (b, e) /\ (b = true <-> hrule l) /\ (b = true -> e = blen (pre ++ l)).
Proof. exact check_hr_spec. Qed.
Print Assumptions C115_rule.
Definition rule_text : bytes := Eval vm_compute in lines_text [B "a"; B " * * *"; B "**_"; B "--"].
Example C115_case : line_in rule_text (B "a" ++ [10]) (B " * * *") /\ hrule (B " * * *") /\ check_hr rule_text 2 = (true, 8) /\
  line_in rule_text (lines_text [B "a"; B " * * *"]) (B "**_") /\ fst (check_hr rule_text 9) = false /\ fst (check_hr rule_text 13) = false.
Proof.
  split; [split; [vm_compute; intuition discriminate|exists (skipn 8 rule_text); split; [reflexivity|right; eexists; reflexivity]]|].
  split; [exists 42; split; [vm_compute; tauto|]; split; [vm_compute; repeat (constructor; [tauto|]); constructor|vm_compute; lia]|]. split; [reflexivity|].
  split; [split; [vm_compute; intuition discriminate|exists (skipn 12 rule_text); split; [reflexivity|right; eexists; reflexivity]]|]. split; reflexivity.
Qed.

(* ---- C116 ---- *)
Theorem C116_tokens_partial : forall lines, Forall (fun l => ordinary l /\ ~ In 10 l) lines ->
  exists toks, tokenize (lines_text lines) = Ok ([[[]]; [[]]] ++ toks ++ [[[]]], []) /\ Forall2 tokens_of lines toks.
Proof. exact tokenize_spec. Qed.
Print Assumptions C116_tokens_partial.
Theorem C116_ends : forall md, tokenize md <> Loop.
Proof. exact tokenize_ends. Qed.
Print Assumptions C116_ends.
(* a last line without an end of line is lost; a hyphen of a list item goes before its text;
   a doubled sign of emphasis and a bracket at the end of the text raise an exception *)
Theorem C116_refuted :
  (exists md, md <> [] /\ tokenize md = tokenize []) /\
  (exists a b l, a <> b /\ tokenize (lines_text [a]) = Ok (l, []) /\ tokenize (lines_text [b]) = Ok (l, [])) /\
  (exists md e, tokenize (lines_text [md]) = Exc e /\ e = EUnboundLocal) /\ (exists md e, tokenize md = Exc e /\ e = EIndexError).
Proof.
  split; [exists (B "abc"); split; [discriminate|vm_compute; reflexivity]|].
  split; [exists (B "- a-b"), (B "-- ab"), [[[]]; [[]]; [B "--"; B " ab"]; [[]]]; split; [discriminate|split; vm_compute; reflexivity]|].
  split; [exists (B "a **b**"), EUnboundLocal; split; vm_compute; reflexivity|]. exists (B "see [a]" ++ [10] ++ B "[a]"), EIndexError. split; vm_compute; reflexivity.
Qed.
Print Assumptions C116_refuted.
Definition some_lines : list bytes := [B "one (two)."; []; B "see *it* and `code`"; B "```"].
Example C116_case : Forall (fun l => ordinary l /\ ~ In 10 l) some_lines /\
  tokenize (lines_text some_lines) = Ok ([[[]]; [[]]; [B "one "; B "("; B "two"; B ")"; B "."]; [[]]; [B "see "; B "*"; B "it"; B "*"; B " and "; B "`"; B "code"; B "`"]; [B "```"]; [[]]], []).
Proof.
  split; [|vm_compute; reflexivity]. assert (NR : forall l, forallb (fun c => Nat.ltb (count_occ Z.eq_dec l c) 3) (B "*_-") = true -> ~ hrule l).
  { intros l H (c & I & _ & K). rewrite forallb_forall in H. specialize (H c I). apply Nat.ltb_lt in H. lia. }
  assert (NE : forall l, forallb (fun i => negb (inb (nth i l 0) [42; 95] && inb (nth (S i) l 0) [42; 95])) (seq 0 (length l)) = true -> forall a x y b, l = a ++ x :: y :: b -> emph_char x -> emph_char y -> False).
  { intros l H a x y b -> X Y. rewrite forallb_forall in H. specialize (H (length a)). rewrite !app_nth2 in H by lia. rewrite Nat.sub_diag in H. replace (S (length a) - length a)%nat with 1%nat in H by lia. cbn [nth] in H.
    assert (inb x [42; 95] = true) by (apply existsb_exists; exists x; split; [exact X|apply Z.eqb_refl]). assert (inb y [42; 95] = true) by (apply existsb_exists; exists y; split; [exact Y|apply Z.eqb_refl]). rewrite H0, H1 in H.
    assert (In (length a) (seq 0 (length (a ++ x :: y :: b)))) by (apply in_seq; rewrite app_length; cbn [length]; lia). specialize (H H2). discriminate. }
  assert (OK : forall l, negb (inb 60 l) && negb (inb 45 l) && negb (inb 10 l) && negb (inb (hd 0 l) [32; 35; 91]) && negb (last l 0 =? 61) && forallb (fun i => negb (inb (nth i l 0) [42; 95] && inb (nth (S i) l 0) [42; 95])) (seq 0 (length l)) && forallb (fun c => Nat.ltb (count_occ Z.eq_dec l c) 3) (B "*_-") = true -> ordinary l /\ ~ In 10 l).
  { intros l H. rewrite !andb_true_iff, !negb_true_iff in H. destruct H as ((((((H1 & H2) & H3) & H4) & H5) & H6) & H7).
    assert (N : forall c m, inb c m = false -> ~ In c m). { intros c m E I. rewrite <- not_true_iff_false in E. apply E. apply existsb_exists. exists c. split; [exact I|apply Z.eqb_refl]. }
    split; [|exact (N _ _ H3)]. constructor; [exact (N _ _ H1)|exact (N _ _ H2)| |lia|exact (NE l H6)|exact (NR l H7)].
    intros c r ->. cbn [hd] in H4. apply N in H4. cbn in H4. intuition. }
  unfold some_lines. repeat (constructor; [apply OK; vm_compute; reflexivity|]). constructor.
Qed.

(* ---- C117 ---- *)
Theorem C117_paragraphs_partial : forall ps, Forall para_ok ps ->
  exists f0, forall fuel, (f0 <= fuel)%nat -> transform fuel (lines_text (flat_map para_lines ps)) = Ok (flat_map para_html ps).
Proof. exact transform_spec. Qed.
Print Assumptions C117_paragraphs_partial.
(* titles and paragraphs, a title being closed by the next line whatever it is *)
Theorem C117_titles_partial : forall bs, Forall mdb_ok bs ->
  exists f0, forall fuel, (f0 <= fuel)%nat -> transform fuel (lines_text (flat_map mdb_lines bs)) = Ok (flat_map mdb_html bs).
Proof. exact transform_blocks. Qed.
Print Assumptions C117_titles_partial.
(* the first words of a second line that has a sign are lost; a sign + opens a list inside a
   paragraph; the address of an image is lost *)
Theorem C117_refuted :
  (exists a b, a <> b /\ transform 100 (lines_text [B "ab"; a]) = Ok ([10] ++ B "<p>" ++ lines_text [B "ab"; b] ++ B "</p>")) /\
  (exists a b, transform 100 (lines_text [a ++ B "+" ++ b]) = Ok ([10] ++ B "<p>" ++ a ++ [10] ++ B "<ul><li>" ++ b ++ B "</li></ul></p>")) /\
  (exists alt u v, u <> v /\ transform 100 (lines_text [B "![" ++ alt ++ B "](" ++ u ++ B ")"]) = transform 100 (lines_text [B "![" ++ alt ++ B "](" ++ v ++ B ")"])).
Proof.
  split; [exists (B "cd. ef"), (B ". ef"); split; [discriminate|vm_compute; reflexivity]|].
  split; [exists (B "a "), (B " b"); vm_compute; reflexivity|]. exists (B "x"), (B "u"), (B "v"). split; [discriminate|vm_compute; reflexivity].
Qed.
Print Assumptions C117_refuted.
(* a bracket that is not closed, in a title: transform never ends *)
Definition open_title : bytes := Eval vm_compute in lines_text [B "# a [b"].
Definition open_toks : list (list bytes) := Eval vm_compute in match tokenize open_title with Ok (t, _) => t | _ => [] end.
Definition again (t : bytes) : rstate := mk_rs 2 0 [] [] [NText t] false true.
Lemma title_cycle t f : render_loop (8 + f) open_toks (again t) = render_loop f open_toks (again (t ++ [10] ++ B "<h1>a </h1>")).
Proof. vm_compute. reflexivity. Qed.
Lemma title_loop : forall n f t, (f < n)%nat -> render_loop f open_toks (again t) = Loop.
Proof.
  induction n as [|n IH]; intros f t L; [lia|]. do 8 (destruct f as [|f]; [vm_compute; reflexivity|]). change (S (S (S (S (S (S (S (S f)))))))) with (8 + f)%nat. rewrite title_cycle. apply IH. lia.
Qed.
Theorem C117_endless_refuted : exists md, forall fuel, transform fuel md = Loop.
Proof.
  exists open_title. intro fuel. unfold transform. replace (tokenize open_title) with (Ok (open_toks, [] : links)) by (vm_compute; reflexivity). cbn [bind]. unfold render.
  do 8 (destruct fuel as [|fuel]; [vm_compute; reflexivity|]). transitivity (render_loop fuel open_toks (again ([10] ++ B "<h1>a </h1>"))); [vm_compute; reflexivity|]. apply (title_loop (S fuel)). lia.
Qed.
Print Assumptions C117_endless_refuted.
Definition some_paras : list para := [(B "One (two), three.", [B "and four"], 1%nat); (B "Five", [], 0%nat)].
Definition some_blocks : list mdblock := [MdTitle 1 (B "A title (short).") 0; MdTitle 12 (B "b") 2; MdPara (B "One (two), three.", [B "and four"], 0%nat)].
Example C117_case : Forall para_ok some_paras /\ Forall mdb_ok some_blocks /\
  transform 60 (lines_text (flat_map mdb_lines some_blocks)) = Ok ([10] ++ B "<h1>A title (short).</h1>" ++ [10] ++ B "<h12>b</h12>" ++ [10] ++ B "<p>One (two), three." ++ [10] ++ B "and four" ++ [10] ++ B "</p>") /\
  flat_map para_html some_paras = [10] ++ B "<p>One (two), three." ++ [10] ++ B "and four" ++ [10] ++ B "</p>" ++ [10] ++ B "<p>Five" ++ [10] ++ B "</p>" /\
  transform 40 (lines_text (flat_map para_lines some_paras)) = Ok (flat_map para_html some_paras).
Proof.
  assert (OK : forall l, negb (is_empty l) && negb (inb 10 l) && forallb (fun c => negb (inb c (B "#`~>*+-<_!["))) l && negb (hd 0 l =? 32) && negb (last l 0 =? 61) && negb (occurs_in (B "    ") l) = true -> para_line l).
  { intros l H. rewrite !andb_true_iff, !negb_true_iff in H. destruct H as (((((H1 & H2) & H3) & H4) & H5) & H6).
    assert (N : forall c m, inb c m = false -> ~ In c m). { intros c m E I. rewrite <- not_true_iff_false in E. apply E. apply existsb_exists. exists c. split; [exact I|apply Z.eqb_refl]. }
    constructor; [intros ->; discriminate|exact (N _ _ H2)| |lia|lia|].
    - apply Forall_forall. intros c I. rewrite forallb_forall in H3. specialize (H3 c I). apply negb_true_iff in H3. exact (N _ _ H3).
    - intros a b E. unfold occurs_in in H6. rewrite E in H6. unfold find in H6. replace (Nat.ltb (length (a ++ B "    " ++ b)) 0) with false in H6 by (symmetry; apply Nat.ltb_ge; lia). cbn [skipn] in H6. destruct (Facts_Chain.find_from_some (B "    ") a b 0) as [k K]. rewrite K in H6. discriminate. }
  assert (WD : forall l, forallb (fun c => negb (inb c (B "[]()+.>*_`"))) l = true -> is_word l).
  { intros l H. apply Forall_forall. intros c I S. rewrite forallb_forall in H. specialize (H c I). apply negb_true_iff in H. rewrite <- not_true_iff_false in H. apply H. apply existsb_exists. exists c. split; [exact S|apply Z.eqb_refl]. }
  split; [|split; [|split; [vm_compute; reflexivity|split; vm_compute; reflexivity]]].
  2:{ unfold some_blocks. constructor; [split; [lia|apply OK; vm_compute; reflexivity]|]. constructor; [split; [lia|apply OK; vm_compute; reflexivity]|]. constructor; [|constructor].
      split; [apply OK; vm_compute; reflexivity|]. constructor; [|constructor]. split; [apply OK|apply WD]; vm_compute; reflexivity. }
  unfold some_paras. constructor; [|constructor; [|constructor]].
  - split; [apply OK; vm_compute; reflexivity|]. constructor; [|constructor]. split; [apply OK|apply WD]; vm_compute; reflexivity.
  - split; [apply OK; vm_compute; reflexivity|constructor].
Qed.
