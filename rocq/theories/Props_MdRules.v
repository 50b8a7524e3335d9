(* C117: titles, paragraphs and horizontal rules *)
From Coq Require Import String.
From Verif Require Import PyBase Model_Objects Model_MdTokens Model_MdRender Spec_MdTokens Spec_MdRender Spec_MdTitles Spec_MdRules Facts_MdRules.
From Verif Require Import Props_MdTokens.

Theorem C117_rules_partial : forall xs, Forall mdi_ok xs ->
  exists f0, forall fuel, (f0 <= fuel)%nat -> transform fuel (lines_text (flat_map mdi_lines xs)) = Ok (flat_map mdi_html xs).
Proof. exact transform_items. Qed.
Print Assumptions C117_rules_partial.
(* two rules in a row, then a title, a rule just below it, and a paragraph *)
Definition some_items : list mditem :=
  [MiRule (B "* * *") 0; MiRule (B "---") 1; MiBlock (hd (MdTitle 0 [] 0) some_blocks); MiRule (B "____  ") 0] ++ map MiBlock some_blocks.
Example C117_rules_case : Forall mdi_ok some_items /\ exists fuel, transform fuel (lines_text (flat_map mdi_lines some_items)) =
  Ok ([10] ++ B "<hr />" ++ [10] ++ B "<hr />" ++ [10] ++ B "<h1>A title (short).</h1>" ++ [10] ++ B "<hr />" ++ flat_map mdb_html some_blocks).
Proof.
  assert (HR : forall l c, In c (B "*_-") -> forallb (fun x => (x =? c) || (x =? 32)) l = true -> (3 <= count_occ Z.eq_dec l c)%nat -> hrule l).
  { intros l c I F N. exists c. split; [exact I|]. split; [|exact N]. apply Forall_forall. intros x X. rewrite forallb_forall in F. specialize (F x X). lia. }
  destruct C117_case as (_ & OK & _). assert (O1 : mdb_ok (hd (MdTitle 0 [] 0) some_blocks)) by (inversion OK; assumption). split.
  - unfold some_items. apply Forall_app. split.
    + constructor; [split; [apply (HR _ 42); vm_compute; auto; lia|discriminate]|]. constructor; [split; [apply (HR _ 45); vm_compute; auto; lia|discriminate]|].
      constructor; [exact O1|]. constructor; [split; [apply (HR _ 95); vm_compute; auto; lia|discriminate]|constructor].
    + rewrite Forall_map. exact OK.
  - exists 100%nat. vm_compute. reflexivity.
Qed.
