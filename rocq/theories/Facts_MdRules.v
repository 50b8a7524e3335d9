(* Proofs about transform on titles, paragraphs and rules *)
From Coq Require Import String.
From Verif Require Import PyBase Model_Objects Model_Filestruct Model_Markdown Model_MdTokens Model_MdRender Spec_Syntax Spec_MdTokens Spec_MdRender Spec_MdTitles Spec_MdRules.
From Verif Require Import Facts_Base Facts_Spell Facts_MdTokens Facts_MdRender Facts_MdTitles.
From Coq Require Import ZifyBool ZifyNat.

(* ---------- tokens ---------- *)
Definition rule_toks : list (list bytes) := [[T_hr]; [[]]].
Lemma hrule_chars l c : hrule l -> In c l -> In c (B "*_-") \/ c = 32.
Proof. intros (x & X & F & _) I. rewrite Forall_forall in F. destruct (F c I) as [->| ->]; auto. Qed.
Lemma hrule_no_nl l : hrule l -> ~ In 10 l.
Proof. intros H I. destruct (hrule_chars l 10 H I) as [X|X]; [cbn in X; lia|lia]. Qed.
Lemma rule_run pre l r res ls f (P : pre = [] \/ last pre 0 = 10) : hrule l -> hd 32 l <> 32 ->
  tok_loop (2 + f) (pre ++ l ++ 10 :: r) (blen pre) [] [] false res ls = tok_loop f (pre ++ l ++ 10 :: r) (blen (pre ++ l ++ [10])) [] [] false (res ++ rule_toks) ls.
Proof.
  intros H S. set (md := pre ++ l ++ 10 :: r). pose proof (hrule_no_nl l H) as N.
  assert (LI : line_in md pre l) by (split; [exact N|exists (10 :: r); split; [reflexivity|right; eauto]]).
  destruct l as [|c l]; [cbn in S; congruence|]. cbn [hd] in S.
  assert (C : c <> 91). { intros ->. destruct (hrule_chars _ 91 H (or_introl eq_refl)) as [X|X]; [cbn in X; lia|lia]. }
  change (2 + f)%nat with (Datatypes.S (Datatypes.S f)). remember (Datatypes.S f) as f1. cbn [tok_loop].
  assert (L : blen pre < blen md) by (unfold md, blen; rewrite !app_length; cbn; lia). replace (blen pre <? blen md) with true by lia. cbn [negb].
  assert (NE : nth_error md (Z.to_nat (blen pre)) = Some c) by (unfold md, blen; rewrite Nat2Z.id, nth_error_app2, Nat.sub_diag; [reflexivity|lia]).
  unfold char_at at 1. rewrite NE. cbn [of_opt bind].
  set (bol := (blen pre =? 0) || _). assert (B1 : bol = true).
  { unfold bol. destruct P as [->|P]; [reflexivity|]. destruct (list_eq_dec Z.eq_dec pre []) as [->|X]; [reflexivity|]. destruct (exists_last X) as (p' & x & E). rewrite E in P. rewrite last_last in P. subst x.
    apply orb_true_iff. right. unfold md. rewrite E, <- app_assoc. replace (Z.to_nat (blen (p' ++ [10]) - 1)) with (length p') by (unfold blen; rewrite app_length; cbn; lia). rewrite nth_error_app2, Nat.sub_diag by lia. reflexivity. }
  rewrite B1. assert (K : check_link_id md (blen pre) = Ok None).
  { unfold check_link_id, char_at. rewrite NE. cbn [of_opt bind]. unfold inb. cbn [existsb]. replace (c =? 32) with false by lia. replace (c =? 91) with false by lia. reflexivity. }
  rewrite K. cbn [bind]. destruct (check_hr_spec md pre (c :: l) LI) as (b & e & E & BB & EE). rewrite E. destruct b; [|exfalso; apply diff_false_true, BB, H]. rewrite (EE eq_refl).
  subst f1. rewrite (turn f md (pre ++ c :: l) 10 r [] [] (res ++ [[T_hr]]) ls [] [[10]] false); [|unfold md; rewrite <- app_assoc; reflexivity| |reflexivity].
  - cbn. rewrite <- !app_assoc. reflexivity.
  - intros [X|X]; [destruct pre; discriminate|]. exfalso. apply N. rewrite last_app in X by discriminate. rewrite <- X. destruct (exists_last (l := c :: l) ltac:(discriminate)) as (m & y & ->). rewrite last_last. apply in_or_app. right. now left.
Qed.

(* a line and the lines of tokens it gives *)
Inductive item_kind : bytes -> list (list bytes) -> Prop :=
| Ik_line l t : line_kind l t -> item_kind l [t]
| Ik_rule l : hrule l -> item_kind l rule_toks.
Definition item_fine (l : bytes) : Prop := line_fine l \/ (hrule l /\ hd 32 l <> 32).
Lemma hrule_len l : hrule l -> (3 <= length l)%nat.
Proof. intros (c & _ & _ & H). pose proof (count_occ_bound Z.eq_dec c l). lia. Qed.
Lemma item_lines : forall lines pre res f (P : pre = [] \/ last pre 0 = 10), Forall item_fine lines ->
  exists tss, tok_loop (length (lines_text lines) + S f) (pre ++ lines_text lines) (blen pre) [] [] false res [] = Ok (res ++ concat tss ++ [[[]]], []) /\ Forall2 item_kind lines tss.
Proof.
  induction lines as [|l lines IH]; intros pre res f P F.
  - exists []. cbn [lines_text flat_map length Nat.add concat]. rewrite app_nil_r. cbn [tok_loop]. rewrite Z.ltb_irrefl. cbn. split; [reflexivity|constructor].
  - pose proof (Forall_inv F) as O. unfold lines_text. cbn [flat_map]. fold (lines_text lines). rewrite app_length. cbn [length]. rewrite app_length. cbn [length].
    rewrite <- (app_assoc l [10]). cbn [app]. destruct O as [O|[H S]].
    + destruct (fine_run pre l (lines_text lines) res [] (length (lines_text lines) + S f) P O) as (t & E & T). rewrite <- !Nat.add_assoc in *. rewrite E.
      replace (pre ++ l ++ 10 :: lines_text lines) with ((pre ++ l ++ [10]) ++ lines_text lines) by (rewrite <- !app_assoc; reflexivity).
      destruct (IH (pre ++ l ++ [10]) (res ++ [t]) f) as (ts & E2 & F2); [right; rewrite !app_assoc, last_last; reflexivity|exact (Forall_inv_tail F)|]. rewrite E2. exists ([t] :: ts). cbn [concat]. rewrite <- !app_assoc. split; [reflexivity|constructor; [now constructor|auto]].
    + pose proof (hrule_len l H) as L. replace (length l + 1 + length (lines_text lines) + Datatypes.S f)%nat with (2 + (length (lines_text lines) + Datatypes.S (f + length l - 1)))%nat by lia.
      rewrite (rule_run pre l (lines_text lines) res [] _ P H S).
      replace (pre ++ l ++ 10 :: lines_text lines) with ((pre ++ l ++ [10]) ++ lines_text lines) by (rewrite <- !app_assoc; reflexivity).
      destruct (IH (pre ++ l ++ [10]) (res ++ rule_toks) (f + length l - 1)%nat) as (ts & E2 & F2); [right; rewrite !app_assoc, last_last; reflexivity|exact (Forall_inv_tail F)|]. rewrite E2. exists (rule_toks :: ts). cbn [concat]. rewrite <- !app_assoc. split; [reflexivity|constructor; [now constructor|auto]].
Qed.

(* ---------- rendering of a rule ---------- *)
Lemma rule_open i a (ctx : bool) : render_turn [T_hr] (mk_rs i 0 [] [] [NText a] ctx false) = Ok (mk_rs (S i) 0 [N_hr] [(i, 1)] [NText a; NText []] false false).
Proof. destruct ctx; reflexivity. Qed.
Lemma rule_close i cp a : render_turn [[]] (mk_rs i 0 [N_hr] [cp] [NText a; NText []] false false) = Ok (mk_rs i 0 [] [] [NText (a ++ [10] ++ B "<hr />")] false false).
Proof. reflexivity. Qed.
Lemma rule_reach k toks past after a (ctx : bool) : toks = past ++ (rule_toks ++ repeat [[]] k) ++ after ->
  reach toks (mk_rs (length past) 0 [] [] [NText a] ctx false) (mk_rs (length (past ++ rule_toks ++ repeat [[]] k)) 0 [] [] [NText (a ++ [10] ++ B "<hr />")] false false).
Proof.
  intros E. apply (reach_trans _ _ (mk_rs (S (length past)) 0 [N_hr] [(length past, 1)] [NText a; NText []] false false)).
  { apply (reach_turn toks [T_hr]); [|cbn; unfold size_of; lia|apply rule_open]. cbn [r_i]. rewrite E, nth_error_app2, Nat.sub_diag by lia. reflexivity. }
  assert (LP : length (past ++ [[T_hr]]) = S (length past)) by (rewrite app_length; cbn; lia).
  assert (E2 : toks = (past ++ [[T_hr]]) ++ repeat [[]] (S k) ++ after) by (rewrite E; unfold rule_toks; cbn [app repeat]; rewrite <- !app_assoc; reflexivity).
  apply (reach_trans _ _ (mk_rs (S (length past)) 0 [] [] [NText (a ++ [10] ++ B "<hr />")] false false)).
  { apply (reach_turn toks [[]]); [|cbn; unfold size_of; lia|apply rule_close]. cbn [r_i]. rewrite E2, <- LP, nth_error_app2, Nat.sub_diag by lia. reflexivity. }
  rewrite <- LP. pose proof (blank_reach (S k) toks (past ++ [[T_hr]]) after (a ++ [10] ++ B "<hr />") E2) as BR. rewrite <- app_assoc in BR. exact BR.
Qed.

(* ---------- texts ---------- *)
Lemma rule_not_fine l : hrule l -> ~ line_fine l.
Proof.
  intros H [[O _]|(n & m & N1 & _ & ->)]; [exact (or_rule _ O H)|].
  destruct (hrule_chars _ 35 H) as [X|X]; [destruct n; [lia|now left]|cbn in X; lia|lia].
Qed.
Lemma kind_fine l t : line_kind l t -> line_fine l.
Proof. intros [? ? O N _|n m ? N1 P _]; [left; auto|right; eauto]. Qed.
Lemma fine_kinds ls tss : Forall line_fine ls -> Forall2 item_kind ls tss -> exists ts, concat tss = ts /\ Forall2 line_kind ls ts.
Proof.
  intros F K. revert F. induction K as [|l t ls tss K _ IH]; intro F; [exists []; split; [reflexivity|constructor]|].
  destruct (IH (Forall_inv_tail F)) as (ts & <- & R). inversion K as [? t' LK|? H]; subst; [|exfalso; exact (rule_not_fine l H (Forall_inv F))].
  exists (t' :: concat tss). split; [reflexivity|constructor; auto].
Qed.
Lemma kinds_ne ls tss : Forall2 item_kind ls tss -> Forall (fun x : list bytes => x <> []) (concat tss).
Proof.
  induction 1 as [|l t ls tss K _ IH]; [constructor|]. cbn [concat]. apply Forall_app. split; [|exact IH].
  destruct K as [l t LK|l _]; [constructor; [eapply kind_ne; eauto|constructor]|repeat constructor; discriminate].
Qed.
Lemma items_reach : forall xs toks past tss after a (ctx : bool), Forall mdi_ok xs -> Forall2 item_kind (flat_map mdi_lines xs) tss -> toks = past ++ concat tss ++ after -> after <> [] -> Forall (fun x => x <> []) toks -> xs <> [] ->
  reach toks (mk_rs (length past) 0 [] [] [NText a] ctx false) (mk_rs (length (past ++ concat tss)) 0 [] [] [NText (a ++ flat_map mdi_html xs)] false false).
Proof.
  induction xs as [|x xs IH]; intros toks past tss after a ctx P F E NA NT NE; [congruence|]. cbn [flat_map] in F. apply Forall2_app_inv_l in F. destruct F as (t1 & t2 & F1 & F2 & ->).
  cbn [flat_map]. rewrite concat_app in E |- *. rewrite <- app_assoc in E.
  assert (R : reach toks (mk_rs (length past) 0 [] [] [NText a] ctx false) (mk_rs (length (past ++ concat t1)) 0 [] [] [NText (a ++ mdi_html x)] false false)).
  { pose proof (Forall_inv P) as PB. destruct x as [b|l k]; cbn [mdi_ok mdi_lines mdi_html] in *.
    - destruct (fine_kinds _ _ (mdb_fine b PB) F1) as (ts & Ets & FK). rewrite Ets in *.
      pose proof (blocks_reach [b] toks past ts (concat t2 ++ after) a ctx) as Q. cbn [flat_map] in Q. rewrite !app_nil_r in Q.
      apply Q; auto; [|discriminate]. intro X. apply app_eq_nil in X. tauto.
    - destruct PB as [H S]. inversion F1 as [|? t ? ts K KS]; subst.
      assert (ET : t = rule_toks). { inversion K as [? t' LK|]; subst; [|reflexivity]. exfalso. exact (rule_not_fine l H (kind_fine l t' LK)). }
      assert (EB : concat ts = repeat [[]] k).
      { destruct (fine_kinds (repeat [] k) ts) as (ts' & <- & FK); [|exact KS|exact (blank_kinds k _ FK)]. apply Forall_forall. intros y I. apply repeat_spec in I. subst y. left. split; [apply blank_ordinary|intros []]. }
      cbn [concat] in *. rewrite ET, EB in *. apply (rule_reach k _ past (concat t2 ++ after)). reflexivity. }
  destruct xs as [|q xs].
  - inversion F2; subst t2. cbn [flat_map concat]. rewrite !app_nil_r. exact R.
  - eapply reach_trans; [exact R|]. rewrite !app_assoc. apply (IH toks (past ++ concat t1) t2 after); [exact (Forall_inv_tail P)|exact F2|rewrite E, <- app_assoc; reflexivity|exact NA|exact NT|discriminate].
Qed.
Lemma mdi_fine x : mdi_ok x -> Forall item_fine (mdi_lines x).
Proof.
  destruct x as [b|l k]; cbn [mdi_ok mdi_lines].
  - intros P. eapply Forall_impl; [|exact (mdb_fine b P)]. intros y Y. now left.
  - intros P. constructor; [now right|]. apply Forall_forall. intros y I. apply repeat_spec in I. subst y. left. left. split; [apply blank_ordinary|intros []].
Qed.
Theorem transform_items xs : Forall mdi_ok xs -> exists f0, forall fuel, (f0 <= fuel)%nat -> transform fuel (lines_text (flat_map mdi_lines xs)) = Ok (flat_map mdi_html xs).
Proof.
  intros P. assert (FL : Forall item_fine (flat_map mdi_lines xs)).
  { apply Forall_forall. intros l I. apply in_flat_map in I. destruct I as (b & Ib & Il). rewrite Forall_forall in P. pose proof (mdi_fine b (P b Ib)) as M. rewrite Forall_forall in M. auto. }
  destruct (item_lines (flat_map mdi_lines xs) [] [[[]]; [[]]] 0 (or_introl eq_refl) FL) as (tss & E & F). rewrite Nat.add_1_r in E. cbn [app] in E.
  unfold transform, tokenize. change (blen []) with 0 in E. rewrite E. cbn [bind]. unfold render. destruct xs as [|x xs].
  - inversion F; subst tss. exists 3%nat. intros fuel L. destruct fuel as [|[|[|fuel]]]; [lia|lia|lia|]. reflexivity.
  - set (ts := concat tss) in *. assert (NT : Forall (fun x : list bytes => x <> []) ([[[]]; [[]]] ++ ts ++ [[[]]])).
    { apply Forall_app. split; [repeat (constructor; [discriminate|]); constructor|]. apply Forall_app. split; [exact (kinds_ne _ _ F)|constructor; [discriminate|constructor]]. }
    destruct (items_reach (x :: xs) ([[[]]; [[]]] ++ ts ++ [[[]]]) [[[]]; [[]]] tss [[[]]] [] true P F eq_refl ltac:(discriminate) NT ltac:(discriminate)) as [n R].
    exists (n + 2)%nat. intros fuel L. replace fuel with (n + S (S (fuel - n - 2)))%nat by lia. change (length [[[]]; [[]]]) with 2%nat in R. fold ts in R. cbn [app] in R |- *. rewrite R.
    apply (end_run _ ([[[]]; [[]]] ++ ts)). rewrite <- app_assoc. reflexivity.
Qed.
