(* Markdown rendering: C56, C72, C73, C74, C75, C76, C77 *)
From Coq Require Import String.
From Verif Require Import PyBase Model_Markdown Spec_Markdown Facts_Markdown Facts_Blocks Facts_Emphasis.

(* ---- C56 ---- *)
Theorem C56_closed_partial : forall s, closed_links s -> exists out, forall fuel, (length s < fuel)%nat -> link fuel s = Ok out.
Proof. exact link_terminates. Qed.
Print Assumptions C56_closed_partial.
(* any link without a closing parenthesis is enough to never return *)
Theorem C56_loops : forall s k, stands (B "](") s k -> (forall j, (k < j)%nat -> ~ stands (B ")") s j) -> forall fuel, link fuel s = Loop.
Proof. exact link_diverges. Qed.
Print Assumptions C56_loops.
Theorem C56_refuted : exists s, forall fuel, link fuel s = Loop.
Proof.
  exists (B "[a](b"). apply C56_loops with 2%nat; [exists (B "[a"), (B "b"); split; reflexivity|].
  intros j L (a & b & E & EL). assert (I : In 41 (skipn j (B "[a](b"))) by (rewrite E, <- EL, skipn_app, skipn_all, Nat.sub_diag; cbn; auto).
  clear - L I. change (B "[a](b") with [91; 97; 93; 40; 98] in I. destruct j as [|[|[|[|[|j]]]]]; cbn [skipn] in I; try rewrite skipn_nil in I; cbn in I; lia.
Qed.
Print Assumptions C56_refuted.
Example C56_case : closed_links (B "a [b](c.md) d") /\ link 20 (B "a [b](c.md) d") = Ok (B "a <a href='c.html'>b</a> d").
Proof.
  split; [|vm_compute; reflexivity]. intros k (a & b & E & EL). exists 10%nat. split; [|exists (B "a [b](c.md"), (B " d"); split; reflexivity].
  assert (L := f_equal (@length Z) E). rewrite !app_length in L. cbn in L. destruct (le_lt_dec 10 k) as [G|]; [exfalso|assumption].
  assert (S := f_equal (skipn k) E). rewrite <- EL, skipn_app, skipn_all, Nat.sub_diag in S. cbn [app skipn] in S. rewrite EL in S. clear - S G L EL.
  destruct k as [|[|[|[|[|[|[|[|[|[|[|[|[|[|k]]]]]]]]]]]]]]; try lia; vm_compute in S; discriminate.
Qed.

(* ---- C72 ---- *)
Theorem C72_links_partial : forall l fuel, Forall piece_ok l -> alternate l -> (starts_link l = true -> last (source l) 0 <> 33) -> (length l < fuel)%nat ->
  link fuel (source l) = Ok (html l).
Proof. exact links_in_place. Qed.
Print Assumptions C72_links_partial.
(* a final exclamation mark turns the first link into an image, and its source stays in the text *)
Theorem C72_refuted : exists l fuel, Forall piece_ok l /\ alternate l /\ (length l < fuel)%nat /\ link fuel (source l) <> Ok (html l) /\
  link fuel (source l) = Ok (B "[a](b)<img src='b' alt='a'>!").
Proof.
  exists [Link (B "a") (B "b"); Plain (B "!")], 9%nat. split; [|split; [cbn; auto|split; [cbn; lia|split; [vm_compute; discriminate|vm_compute; reflexivity]]]].
  unfold unbracketed. repeat constructor; cbn; unfold unbracketed; try discriminate; cbn; intuition discriminate.
Qed.
Print Assumptions C72_refuted.
Example C72_case : exists l, Forall piece_ok l /\ alternate l /\ (starts_link l = true -> last (source l) 0 <> 33) /\
  source l = B "see [a](b.md) and ![i](j.png)[c](d)." /\ html l = B "see <a href='b.html'>a</a> and <img src='j.png' alt='i'><a href='d'>c</a>.".
Proof.
  exists [Plain (B "see "); Link (B "a") (B "b.md"); Plain (B " and "); Image (B "i") (B "j.png"); Link (B "c") (B "d"); Plain (B ".")].
  split; [|split; [cbn; repeat split; discriminate|split; [discriminate|split; reflexivity]]].
  repeat constructor; cbn; unfold unbracketed; try discriminate; cbn; intuition discriminate.
Qed.

(* ---- C73 ---- *)
Theorem C73_code_partial : forall l, Forall span_ok l -> style (flat_map span_source l) = flat_map span_html l.
Proof. exact code_in_place. Qed.
Print Assumptions C73_code_partial.
(* after an emphasis, the end of the line is dropped *)
Theorem C73_refuted : exists s c, In c s /\ ~ In c (style s) /\ s = B "a *b*c" /\ style s = B "a <em>b</em>" /\ c = 99.
Proof. exists (B "a *b*c"), 99. split; [vm_compute; auto 10|]. split; [vm_compute; intuition discriminate|]. repeat split; vm_compute; reflexivity. Qed.
Print Assumptions C73_refuted.
Example C73_case : exists l, Forall span_ok l /\ flat_map span_source l = B "run `ls *` or `a_b`." /\ flat_map span_html l = B "run <code>ls *</code> or <code>a_b</code>.".
Proof.
  exists [Words (B "run "); Code (B "ls *"); Words (B " or "); Code (B "a_b"); Words (B ".")]. split; [|split; reflexivity].
  repeat constructor; cbn; discriminate.
Qed.

(* code and emphasis together *)
Theorem C73_inline_partial : forall l, inline_ok 32 l -> style (flat_map inline_source l) = flat_map inline_html l.
Proof. exact inline_in_place. Qed.
Print Assumptions C73_inline_partial.
Example C73_inline_case : exists l, inline_ok 32 l /\ flat_map inline_source l = B "**Run** _it_ as `a_b`, ***now*** *then*" /\
  flat_map inline_html l = B "<strong>Run</strong> <em>it</em> as <code>a_b</code>, <em><strong>now</strong></em> <em>then</em>".
Proof.
  exists [IEmph 2 42 (B "Run"); IWords (B " "); IEmph 1 95 (B "it"); IWords (B " as "); ICode (B "a_b"); IWords (B ", "); IEmph 3 42 (B "now"); IWords (B " "); IEmph 1 42 (B "then")].
  split; [|split; reflexivity].
  assert (W : forall p : Z -> bool, forall t, forallb p t = true -> Forall (fun c => p c = true) t) by (intros p t H; apply Forall_forall; now rewrite <- forallb_forall).
  assert (W1 : forall t, forallb (fun c => negb ((c =? 96) || (c =? 42) || (c =? 95))) t = true -> Forall (fun c => c <> 96 /\ c <> 42 /\ c <> 95) t) by (intros t H; apply W in H; eapply Forall_impl; [|exact H]; cbn; intros; lia).
  assert (W2 : forall t, forallb (fun c => negb ((c =? 42) || (c =? 95))) t = true -> Forall (fun c => c <> 42 /\ c <> 95) t) by (intros t H; apply W in H; eapply Forall_impl; [|exact H]; cbn; intros; lia).
  assert (W3 : forall t, forallb (fun c => negb (c =? 96)) t = true -> Forall (fun c => c <> 96) t) by (intros t H; apply W in H; eapply Forall_impl; [|exact H]; cbn; intros; lia).
  cbn [inline_ok]. repeat split; try lia; try discriminate; try (apply W1; reflexivity); try (apply W2; reflexivity); try (apply W3; reflexivity);
    try (right; split; reflexivity); try (left; reflexivity); try (right; left; reflexivity); right; right; eexists; eexists; (split; [reflexivity|cbn; lia]).
Qed.

(* ---- C75 ---- *)
Theorem C75_ends : forall lines, exists r, r <> Loop /\ forall fuel, (2 * length lines + 2 <= fuel)%nat -> parse_markdown fuel lines = r.
Proof. exact blocks_end. Qed.
Print Assumptions C75_ends.
Example C75_case : exists bl k, parse_markdown 20 [B "  > a"; B "   "; B "* x"; B "```"] = Ok (bl, k).
Proof. do 2 eexists. vm_compute. reflexivity. Qed.

(* ---- C76 ---- *)
Theorem C76_paragraphs_partial : forall ps fuel, Forall plain_paragraph ps -> (length (flat_map paragraph_source ps) + 1 < fuel)%nat ->
  render_html fuel (flat_map paragraph_source ps) = Ok (flat_map paragraph_html ps).
Proof. exact paragraphs_rendered. Qed.
Print Assumptions C76_paragraphs_partial.
(* a last paragraph without an empty line is dropped, the lines of a paragraph are glued together, and a short table raises IndexError *)
Theorem C76_refuted : (exists s, s <> [] /\ s = B "hello" /\ forall fuel, (2 < fuel)%nat -> render_html fuel s = Ok []) /\
  render_html 9 (B "some" ++ [10] ++ B "words" ++ [10; 10]) = Ok (B "<p>somewords</p>" ++ [10]) /\
  render_html 9 (B "| a |" ++ [10] ++ B "|") = Exc EIndexError.
Proof.
  split; [|split; vm_compute; reflexivity]. exists (B "hello"). split; [discriminate|]. split; [reflexivity|].
  intros [|[|[|fuel]]] L; try lia. vm_compute. reflexivity.
Qed.
Print Assumptions C76_refuted.
Example C76_case : exists ps, Forall plain_paragraph ps /\ flat_map paragraph_source ps = B "Some text, 2 lines" ++ [10] ++ B "here." ++ [10; 10] ++ B "Next" ++ [10; 10].
Proof.
  exists [[B "Some text, 2 lines"; B "here."]; [B "Next"]]. split; [|reflexivity].
  repeat constructor; try discriminate; unfold letter; cbn; try lia; repeat constructor; discriminate.
Qed.

(* ---- C77 ---- *)
Theorem C77_code_partial : forall s, (~ In 60 (entities s) /\ ~ In 62 (entities s)) /\ (~ In 38 s -> shown_text (entities s) = s).
Proof. intro s. split; [exact (entities_safe s)|exact (entities_read s)]. Qed.
Print Assumptions C77_code_partial.
(* ampersands are not escaped: two different texts are shown the same *)
Theorem C77_refuted : exists s, shown_text (entities s) <> s /\ entities s = entities (B "<") /\ s = B "&lt;".
Proof. exists (B "&lt;"). split; [vm_compute; discriminate|split; reflexivity]. Qed.
Print Assumptions C77_refuted.
Example C77_case : ~ In 38 (B "if a < b > c") /\ entities (B "if a < b > c") = B "if a &lt; b &gt; c".
Proof. split; [vm_compute; intuition discriminate|reflexivity]. Qed.
(* a fenced code block of a page is shown as written, line by line, whatever markup it contains *)
Theorem C77_fence_partial : forall lang code fuel, block_ok (Fence lang code) -> Forall (fun l => ~ In 38 l) code ->
  (length (block_source (Fence lang code)) + 1 < fuel)%nat ->
  exists body, render_html fuel (block_source (Fence lang code)) = Ok (B "<pre>" ++ body ++ B "</pre>" ++ [10]) /\
    ~ In 60 body /\ ~ In 62 body /\ shown_text body = flat_map line_of code.
Proof. exact fence_rendered. Qed.
Print Assumptions C77_fence_partial.
Example C77_fence_case : block_ok (Fence (B "python") [B "if a < b[0](1):"; B "    *x* = `y`"]) /\ Forall (fun l => ~ In 38 l) [B "if a < b[0](1):"; B "    *x* = `y`"].
Proof. split; [cbn; repeat split; try (repeat constructor; cbn; intuition discriminate); cbn; intuition discriminate|repeat constructor; cbn; intuition discriminate]. Qed.

(* ---- C74 ---- *)
Theorem C74_blocks_partial : forall bs fuel, Forall block_ok bs -> (length (flat_map block_source bs) + 1 < fuel)%nat ->
  exists hs, Forall2 block_html bs hs /\ render_html fuel (flat_map block_source bs) = Ok (concat hs).
Proof. exact blocks_rendered. Qed.
Print Assumptions C74_blocks_partial.
(* the line after a list is lost, and so is the paragraph standing just above an underlined title, and so is a short line
   indented by a tab *)
Theorem C74_refuted :
  render_html 99 (B "* one" ++ [10] ++ B "lost" ++ [10; 10]) = Ok (B "<ul><li>one</li>" ++ [10] ++ B "</ul>" ++ [10] ++ B "<p></p>" ++ [10]) /\
  render_html 99 (B "lost" ++ [10] ++ B "Title" ++ [10] ++ B "=====" ++ [10; 10]) = render_html 99 (B "Title" ++ [10] ++ B "=====" ++ [10; 10]) /\
  render_html 99 ([9] ++ B "abc" ++ [10; 10]) = render_html 99 ([9] ++ B "xyz" ++ [10; 10]).
Proof. split; [|split]; vm_compute; reflexivity. Qed.
Print Assumptions C74_refuted.
Definition page_case : list block :=
  [Title 2 (B "A title"); Para [B "Some text  "; B "and more."]; Bullets 2 45 [B "one"; B "two words"]; Fence (B "py") [B "a < b"; B "* c"]; Steps 0 [(B "1", B "first"); (B "02", B "then")];
   Underlined 1 (B "Part one") 4; Underlined 2 (B "Sub") 3; Indented [B "x > y"; B "end"];
   Table [B " a "; B " b "] [B " --- "; B " --- "] [[B " 1 "; B ""]; [B " 2"; B "3"]]].
Example C74_case : Forall block_ok page_case /\
  render_html 999 (flat_map block_source page_case) =
  Ok (B "<h2>A title</h2>" ++ [10] ++ B "<p>Some text  <br>and more.</p>" ++ [10] ++
      B "<ul><li>one</li>" ++ [10] ++ B "<li>two words</li>" ++ [10] ++ B "</ul>" ++ [10] ++
      B "<pre>a &lt; b" ++ [10] ++ B "* c" ++ [10] ++ B "</pre>" ++ [10] ++
      B "<ol><li>first</li>" ++ [10] ++ B "<li>then</li>" ++ [10] ++ B "</ol>" ++ [10] ++
      B "<h1>Part one</h1>" ++ [10] ++ B "<h2>Sub</h2>" ++ [10] ++
      B "<pre>    x &gt; y" ++ [10] ++ B "    end" ++ [10] ++ B "</pre>" ++ [10] ++
      B "<table><thead><tr><th> a </th>" ++ [10] ++ B "<th> b </th>" ++ [10] ++ B "</tr>" ++ [10] ++ B "</thead>" ++ [10] ++
      B "<tbody><tr><td> 1 </td>" ++ [10] ++ B "<td></td>" ++ [10] ++ B "</tr>" ++ [10] ++ B "<tr><td> 2</td>" ++ [10] ++ B "<td>3</td>" ++ [10] ++ B "</tr>" ++ [10] ++
      B "</tbody>" ++ [10] ++ B "</table>" ++ [10]).
Proof.
  split; [|vm_compute; reflexivity]. unfold page_case, block_ok, indented_line, cell_text, ruled, unmarked, code_line, letter. change (B "--") with [45; 45].
  repeat (apply Forall_cons || apply Forall_nil || split); try discriminate; cbn; try lia; try (intuition discriminate); try (repeat constructor; discriminate).
  1: eexists; eexists; reflexivity. 1,2: intros (a & r & Q); discriminate Q.
Qed.
