(* Proofs about markdown documents made of blocks and of quotations *)
From Coq Require Import String ZifyBool ZifyNat.
From Verif Require Import PyBase Model_Objects Model_Filestruct Model_Markdown Spec_Markdown Spec_Quotes Facts_Base Facts_Markdown Facts_Blocks.

Definition quote_line (l : bytes) : bytes := 62 :: 32 :: l.
Lemma quote_token l : letter (hd 0 l) -> indentation_and_first_token (quote_line l) = (1%nat, []).
Proof.
  intro HL. destruct l as [|c l]; [unfold letter in HL; cbn in HL; lia|]. cbn [hd] in HL. unfold letter in HL. unfold quote_line, indentation_and_first_token. cbn [indent_loop].
  change (62 =? 32) with false. change (62 =? 62) with true. change (32 =? 32) with true. cbn iota. replace (c =? 32) with false by lia. replace (c =? 62) with false by lia. replace (c =? 9) with false by lia. reflexivity.
Qed.
Lemma quote_break l : l <> [] -> beqb (slice (quote_line l) (-2) (blen (quote_line l))) [32; 32] = beqb (slice (32 :: l) (-2) (blen (32 :: l))) [32; 32].
Proof.
  intro N. apply eq_true_iff_eq. rewrite !ends_two. unfold broken. split; intros (m & E).
  - destruct m as [|x m]; [destruct l as [|? [|? ?]]; discriminate|]. injection E as _ E. exists m. exact E.
  - exists (62 :: m). unfold quote_line. rewrite E. reflexivity.
Qed.
Lemma quote_cr l : unmarked l -> strip_cr (quote_line l) = quote_line l.
Proof. intro U. apply strip_cr_no. intros [X|[X|X]]; [lia|lia|exact (unmarked_cr l U X)]. Qed.
Lemma quote_turn fuel lines i b blocks l : (i < length lines)%nat -> line_at lines i = quote_line l -> Facts_Blocks.para_line l ->
  md_loop (S fuel) lines 2 i b blocks = md_loop fuel lines 2 (i + 1) (b ++ with_break (32 :: l)) blocks.
Proof.
  intros LI EL (HL & U). cbn [md_loop]. replace (i <? length lines)%nat with true by (symmetry; apply Nat.ltb_lt; auto). rewrite EL, (quote_cr l U), (quote_token l HL).
  cbn [Nat.add Nat.ltb Nat.leb truthy_b negb andb starts length firstn beqb skipn]. change (truthy_b (quote_line l)) with true. unfold all_eq at 1 2. unfold quote_line at 1 2. cbn [forallb]. change (61 =? 62) with false. change (45 =? 62) with false. cbn [andb orb].
  change (is_bullet []) with false. change (ends_dot []) with false. cbn [andb].
  replace (match b with [] => false | _ => negb true end) with false by (destruct b; reflexivity). cbn iota. unfold with_break. rewrite quote_break by (intros ->; unfold letter in HL; cbn in HL; lia). reflexivity.
Qed.
Lemma quote_lines p : forall fuel pre post b blocks, Forall Facts_Blocks.para_line p ->
  md_loop (length p + S fuel) (pre ++ map quote_line p ++ [] :: post) 2 (length pre) b blocks =
  Ok (blocks ++ flush_p (b ++ flat_map with_break (map (cons 32) p)), (length pre + length p)%nat).
Proof.
  induction p as [|l p IH]; intros fuel pre post b blocks F.
  - cbn [length map app flat_map Nat.add]. rewrite app_nil_r, Nat.add_0_r. cbn [md_loop]. replace (length pre <? length (pre ++ [] :: post))%nat with true by (symmetry; apply Nat.ltb_lt; rewrite app_length; cbn; lia).
    rewrite line_at_app. reflexivity.
  - inversion F; subst. cbn [length Nat.add]. rewrite quote_turn with (l := l); [|rewrite !app_length; cbn [length map]; lia|cbn [map app]; apply line_at_app|auto].
    replace (pre ++ map quote_line (l :: p) ++ [] :: post) with ((pre ++ [quote_line l]) ++ map quote_line p ++ [] :: post) by (cbn [map]; rewrite <- !app_assoc; reflexivity).
    replace (length pre + 1)%nat with (length (pre ++ [quote_line l])) by (rewrite app_length; reflexivity). rewrite IH by auto. cbn [map flat_map]. rewrite <- app_assoc, app_length. cbn [length]. f_equal. f_equal. lia.
Qed.
Definition quote_node (p : list bytes) : mdnode := MdTag (B "blockquote") [MdTag (B "p") [MdText (concat (flat_map with_break (map (cons 32) p)))]].
Lemma quote_step p fuel pre post blocks : p <> [] -> Forall Facts_Blocks.para_line p -> (length p < fuel)%nat ->
  md_loop (S fuel) (pre ++ map quote_line p ++ [] :: post) 0 (length pre) [] blocks =
  md_loop fuel (pre ++ map quote_line p ++ [] :: post) 0 (length (pre ++ map quote_line p ++ [[]])) [] (blocks ++ [quote_node p]).
Proof.
  intros NP F LF. pose proof (quote_lines p (fuel - length p - 1) pre post [] [] F) as Q. replace (length p + S (fuel - length p - 1))%nat with fuel in Q by lia.
  destruct p as [|l p]; [congruence|]. set (lines := pre ++ map quote_line (l :: p) ++ [] :: post) in *.
  assert (LI : (length pre < length lines)%nat) by (unfold lines; rewrite !app_length; cbn [length map]; lia).
  assert (EL : line_at lines (length pre) = quote_line l) by (unfold lines; cbn [map app]; apply line_at_app).
  destruct (Forall_inv F) as (HL & U). remember fuel as f1. cbn [md_loop]. replace (length pre <? length lines)%nat with true by (symmetry; apply Nat.ltb_lt; auto). rewrite EL, (quote_cr l U), (quote_token l HL).
  cbn [Nat.add Nat.ltb Nat.leb truthy_b negb andb]. rewrite Q. cbn [bind app flush_p]. rewrite app_nil_r.
  replace (length (pre ++ map quote_line (l :: p) ++ [[]])) with (length pre + length (l :: p) + 1)%nat by (rewrite !app_length, map_length; cbn [length]; lia).
  cbn [map flat_map app]. unfold with_break at 1. cbn [app flush_p]. reflexivity.
Qed.

Definition passage_lines (x : passage) : list bytes := match x with Unquoted b => block_lines b | Quoted p => map quote_line p ++ [[]] end.
Definition passage_node (x : passage) : mdnode := match x with Unquoted b => block_node b | Quoted p => quote_node p end.
Lemma passages_parsed xs : forall fuel pre blocks, Forall passage_ok xs -> (length (flat_map passage_lines xs) + 1 < fuel)%nat ->
  exists n, md_loop fuel (pre ++ flat_map passage_lines xs ++ [[]]) 0 (length pre) [] blocks = Ok (blocks ++ map passage_node xs, n).
Proof.
  induction xs as [|x xs IH]; intros fuel pre blocks F L.
  - cbn [flat_map app map] in *. cbn [length] in L. destruct fuel as [|[|fuel]]; [lia|lia|].
    destruct (empty_turn (S fuel) (pre ++ [[]]) (length pre) blocks) as (b' & ->); [rewrite app_length; cbn; lia|apply line_at_app|].
    rewrite md_stop by (rewrite app_length; cbn; lia). rewrite app_nil_r. eexists. reflexivity.
  - inversion F as [|? ? OK F']; subst. cbn [flat_map map] in *. rewrite app_length in L. rewrite <- (app_assoc (passage_lines x)). destruct x as [bk|p]; cbn [passage_lines passage_node passage_ok] in *.
    + assert (E : fuel = (length (block_lines bk) + (fuel - length (block_lines bk)))%nat) by lia. rewrite E, block_step by auto. clear E.
      rewrite (app_assoc pre).
      match goal with |- context [md_loop ?f _ _ _ _ _] => destruct (IH f (pre ++ block_lines bk) (blocks ++ [block_node bk]) F') as (n & EN) end.
      * destruct bk; lia.
      * exists n. rewrite EN. rewrite <- app_assoc. reflexivity.
    + destruct OK as (NP & FP). rewrite app_length, map_length in L. cbn [length] in L. destruct fuel as [|fuel]; [lia|].
      rewrite <- (app_assoc (map quote_line p)). cbn [app]. rewrite quote_step by (auto; lia).
      replace (pre ++ map quote_line p ++ [] :: flat_map passage_lines xs ++ [[]]) with ((pre ++ map quote_line p ++ [[]]) ++ flat_map passage_lines xs ++ [[]]) by (rewrite <- !app_assoc; reflexivity).
      destruct (IH fuel (pre ++ map quote_line p ++ [[]]) (blocks ++ [quote_node p]) F') as (n & EN); [destruct p; [congruence|]; cbn [length] in L; lia|].
      exists n. rewrite EN. rewrite <- app_assoc. reflexivity.
Qed.
Lemma passage_split x : passage_ok x -> Forall (Forall (fun c => c <> 10)) (passage_lines x) /\ passage_source x = flat_map (fun l => l ++ [10]) (passage_lines x).
Proof.
  destruct x as [b|p]; cbn [passage_ok passage_lines passage_source]; [apply block_split|]. intros (NP & F). split.
  - apply Forall_app. split; [|repeat constructor]. rewrite Forall_map. eapply Forall_impl; [|exact F]. intros l (_ & U). constructor; [lia|]. constructor; [lia|]. apply no_nl_forall, unmarked_nl, U.
  - rewrite flat_map_app. cbn [flat_map app]. f_equal. rewrite !flat_map_concat_map, map_map. reflexivity.
Qed.
Lemma passages_split xs : Forall passage_ok xs -> split_on 10 (flat_map passage_source xs) = flat_map passage_lines xs ++ [[]].
Proof. induction 1 as [|b bs OK _ IH]; [reflexivity|]. cbn [flat_map]. destruct (passage_split b OK) as (F & ->). rewrite split_lines by auto. rewrite IH, app_assoc. reflexivity. Qed.
Lemma passages_length xs : Forall passage_ok xs -> (length (flat_map passage_lines xs) <= length (flat_map passage_source xs))%nat.
Proof.
  induction 1 as [|b bs OK _ IH]; [auto|]. cbn [flat_map]. rewrite !app_length. destruct (passage_split b OK) as (_ & ->). clear OK.
  enough ((length (passage_lines b) <= length (flat_map (fun l => l ++ [10%Z]) (passage_lines b)))%nat) by lia. induction (passage_lines b) as [|l r IHr]; [auto|]. cbn [flat_map length]. rewrite !app_length. cbn [length]. lia.
Qed.
Lemma breaks_html p : exists hs, Forall2 line_html p hs /\ concat (flat_map with_break p) = concat hs.
Proof.
  induction p as [|l p (hs & F2 & E)]; [exists []; now split|]. cbn [flat_map]. destruct (beqb (slice l (-2) (blen l)) [32; 32]) eqn:EB.
  - exists ((l ++ B "<br>") :: hs). split; [constructor; auto; left; split; [now apply ends_two|reflexivity]|]. unfold with_break at 1. rewrite EB. cbn [app concat]. rewrite E, <- app_assoc. reflexivity.
  - exists (l :: hs). split; [constructor; auto; right; split; [rewrite <- ends_two, EB; discriminate|reflexivity]|]. unfold with_break at 1. rewrite EB. cbn [app concat]. rewrite E. reflexivity.
Qed.
Lemma breaks_nomark p : Forall nomark p -> nomark (concat (flat_map with_break p)).
Proof.
  induction 1 as [|l p U _ IH]; [constructor|]. cbn [flat_map]. rewrite concat_app. apply Forall_app. split; [|exact IH]. unfold with_break. destruct (beqb _ _); cbn [concat]; rewrite ?app_nil_r; [|exact U].
  apply Forall_app. split; [exact U|]. repeat constructor; discriminate.
Qed.
Lemma passage_assembled fuel x : (1 < fuel)%nat -> passage_ok x -> exists h, passage_html x h /\ assemble fuel false (passage_node x) = Ok h.
Proof.
  intros L. destruct x as [b|p]; cbn [passage_ok passage_node].
  - intro OK. destruct (block_assembled fuel b L OK) as (h & H1 & H2). exists h. split; [now constructor|exact H2].
  - intros (NP & F). destruct (breaks_html (map (cons 32) p)) as (hs & F2 & E). exists (element (B "blockquote") (element (B "p") (concat hs))). split; [now constructor|]. rewrite <- E.
    unfold quote_node. apply assemble_tag. change (beqb (B "blockquote") (B "pre")) with false. cbn [siblings]. rewrite assemble_one; auto.
    + cbn [bind]. rewrite app_nil_r. reflexivity.
    + destruct p as [|l p]; [congruence|]. cbn [map flat_map]. discriminate.
    + apply breaks_nomark. rewrite Forall_map. eapply Forall_impl; [|exact F]. intros l (_ & U). constructor; [lia|]. now apply unmarked_nomark.
Qed.
Lemma passages_assembled fuel xs : (1 < fuel)%nat -> Forall passage_ok xs -> exists hs, Forall2 passage_html xs hs /\ assemble_html fuel (map passage_node xs) = Ok (concat hs).
Proof.
  intro L. induction 1 as [|b bs OK _ (hs & F2 & E)]; [exists []; now split|]. destruct (passage_assembled fuel b L OK) as (h & HB & EB). exists (h :: hs). split; [now constructor|].
  cbn [map assemble_html]. rewrite EB. cbn [bind]. rewrite E. reflexivity.
Qed.
Theorem passages_rendered xs fuel : Forall passage_ok xs -> (length (flat_map passage_source xs) + 1 < fuel)%nat ->
  exists hs, Forall2 passage_html xs hs /\ render_html fuel (flat_map passage_source xs) = Ok (concat hs).
Proof.
  intros F L. assert (L2 := passages_length xs F). destruct (passages_assembled fuel xs ltac:(lia) F) as (hs & F2 & E). exists hs. split; [exact F2|].
  unfold render_html, parse_markdown. rewrite passages_split by auto. destruct (passages_parsed xs fuel [] [] F ltac:(lia)) as (n & EN). cbn [app length] in EN. rewrite EN. cbn [bind]. exact E.
Qed.
