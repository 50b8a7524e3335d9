(* C74: documents with quotations *)
From Coq Require Import String.
From Verif Require Import PyBase Model_Markdown Spec_Markdown Spec_Quotes Facts_Quotes Props_Markdown.

Theorem C74_quotes_partial : forall xs fuel, Forall passage_ok xs -> (length (flat_map passage_source xs) + 1 < fuel)%nat ->
  exists hs, Forall2 passage_html xs hs /\ render_html fuel (flat_map passage_source xs) = Ok (concat hs).
Proof. exact passages_rendered. Qed.
Print Assumptions C74_quotes_partial.
(* the line after a quotation is lost; a title, or a quotation, in a quotation is plain text; no quotation without a space
   after the sign *)
Theorem C74_quotes_refuted :
  render_html 99 (B "> a" ++ [10] ++ B "lost" ++ [10; 10]) = Ok (B "<blockquote><p> a</p>" ++ [10] ++ B "</blockquote>" ++ [10] ++ B "<p></p>" ++ [10]) /\
  render_html 99 (B "> # a" ++ [10; 10]) = Ok (B "<blockquote><p> # a</p>" ++ [10] ++ B "</blockquote>" ++ [10]) /\
  render_html 99 (B "> > a" ++ [10; 10]) = render_html 99 (B "> a" ++ [10; 10]) /\
  render_html 99 (B ">a" ++ [10; 10]) = Ok (B "<p>>a</p>" ++ [10]).
Proof. repeat split; vm_compute; reflexivity. Qed.
Print Assumptions C74_quotes_refuted.
Definition quoted_case : list passage := Quoted [B "one  "; B "two"] :: map Unquoted page_case ++ [Quoted [B "three"]].
Example C74_quotes_case : Forall passage_ok quoted_case /\
  render_html 99 (flat_map passage_source [Quoted [B "one  "; B "two"]; Quoted [B "three"]]) =
  Ok (B "<blockquote><p> one  <br> two</p>" ++ [10] ++ B "</blockquote>" ++ [10] ++ B "<blockquote><p> three</p>" ++ [10] ++ B "</blockquote>" ++ [10]).
Proof.
  split; [|vm_compute; reflexivity]. destruct C74_case as (OK & _).
  assert (Q : forall p, p <> [] -> Forall (fun l => letter (hd 0 l) /\ unmarked l) p -> passage_ok (Quoted p)) by (intros p N F; split; auto).
  unfold quoted_case. constructor; [|apply Forall_app; split; [rewrite Forall_map; exact OK|constructor; [|constructor]]].
  all: apply Q; [discriminate|]; unfold letter, unmarked; repeat (apply Forall_cons || apply Forall_nil || split); try (cbn; lia).
Qed.
