(* Proofs about transform *)
From Coq Require Import String.
From Verif Require Import PyBase Model_Objects Model_Filestruct Model_Markdown Model_MdTokens Model_MdRender Spec_MdTokens Spec_MdRender.
From Verif Require Import Facts_Base Facts_MdTokens.
From Coq Require Import ZifyBool ZifyNat.

(* tokens without a meaning in a paragraph *)
Definition inert (t : bytes) : Prop := t <> B "    " /\ exists h r, t = h :: r /\ ~ In h (B "#`~>*+-<_![").
Lemma beqb_head h r k s : h <> k -> beqb (h :: r) (k :: s) = false.
Proof. intro N. destruct (beqb (h :: r) (k :: s)) eqn:E; [|reflexivity]. apply beqb_eq in E. congruence. Qed.
Lemma head_ne h k : ~ In h (B "#`~>*+-<_![") -> In k (B "#`~>*+-<_![") -> h <> k.
Proof. intros N I ->. contradiction. Qed.
Lemma inert_occurs h r s : (forall k, In k s -> h <> k) -> occurs_in (h :: r) s = false.
Proof.
  intro N. unfold occurs_in, find. replace (Nat.ltb (length s) 0) with false by (symmetry; apply Nat.ltb_ge; lia). cbn [skipn]. generalize 0%nat. induction s as [|k s IH]; intro i; cbn [find_from].
  - unfold starts. cbn. reflexivity.
  - unfold starts. cbn [length firstn]. replace (beqb (k :: firstn (length r) s) (h :: r)) with false; [apply IH; intros; apply N; now right|]. symmetry. apply beqb_head. intro E. apply (N k); [now left|auto].
Qed.
Lemma inert_block t (st : list bytes) : inert t -> st = [] \/ st = [N_p] -> detect_new_block t st = (if is_empty st then Some N_p else None, 0).
Proof.
  intros (S & h & r & -> & N) ST. pose proof (fun k => head_ne h k N) as HN. unfold detect_new_block.
  replace (all_of 35 (h :: r)) with false. 2:{ symmetry. unfold all_of. cbn [truthy_b andb forallb]. replace (35 =? h) with false; [reflexivity|]. symmetry. apply Z.eqb_neq. intro X. apply (HN 35); [vm_compute; tauto|auto]. }
  replace (is_fence (h :: r)) with false. 2:{ symmetry. unfold is_fence. apply orb_false_iff. split; apply beqb_head; apply HN; vm_compute; tauto. }
  replace (beqb (h :: r) (B "    ")) with false. 2:{ symmetry. destruct (beqb (h :: r) (B "    ")) eqn:E; [|reflexivity]. apply beqb_eq in E. contradiction. }
  replace (beqb (h :: r) (B ">")) with false by (symmetry; apply beqb_head, HN; vm_compute; tauto).
  replace (occurs_in (h :: r) (B "-*+")) with false by (symmetry; apply inert_occurs; intros k I; apply HN; vm_compute in I; vm_compute; tauto).
  replace (occurs_in (h :: r) (B "*+-")) with false by (symmetry; apply inert_occurs; intros k I; apply HN; vm_compute in I; vm_compute; tauto).
  replace (beqb (h :: r) T_hr) with false by (symmetry; apply beqb_head, HN; vm_compute; tauto).
  rewrite !andb_false_r. destruct ST as [-> | ->]; reflexivity.
Qed.
Lemma inert_span t prev : inert t -> detect_span t [N_p] prev = Ok SNothing.
Proof.
  intros (S & h & r & -> & N). pose proof (fun k => head_ne h k N) as HN. unfold detect_span.
  replace (beqb (h :: r) (B "`")) with false by (symmetry; apply beqb_head, HN; vm_compute; tauto).
  replace (beqb (h :: r) (B "_")) with false by (symmetry; apply beqb_head, HN; vm_compute; tauto).
  replace (beqb (h :: r) (B "__")) with false by (symmetry; apply beqb_head, HN; vm_compute; tauto).
  replace (beqb (h :: r) (B "!")) with false by (symmetry; apply beqb_head, HN; vm_compute; tauto).
  replace (beqb (h :: r) (B "[")) with false by (symmetry; apply beqb_head, HN; vm_compute; tauto).
  cbn [is_empty negb last andb bind]. change (beqb N_p N_url) with false. change (beqb N_p N_obj) with false. change (beqb N_p N_link_id) with false. change (beqb N_p N_a) with false. cbn [andb].
  destruct (beqb (h :: r) (B "]")); [reflexivity|]. destruct (beqb (h :: r) (B "(")); [reflexivity|]. destruct (beqb (h :: r) (B ")")); [reflexivity|]. destruct (beqb (h :: r) (B ")]")); reflexivity.
Qed.

(* runs of render_loop *)
Definition reach (toks : list (list bytes)) (s s' : rstate) : Prop := exists n, forall f, render_loop (n + f) toks s = render_loop f toks s'.
Lemma reach_refl toks s : reach toks s s.
Proof. exists 0%nat. reflexivity. Qed.
Lemma reach_trans toks a b c : reach toks a b -> reach toks b c -> reach toks a c.
Proof. intros [n H] [m K]. exists (n + m)%nat. intro f. rewrite <- Nat.add_assoc, H. apply K. Qed.
Lemma reach_turn toks line s s' : nth_error toks (r_i s) = Some line -> r_j s <= size_of line -> render_turn line s = Ok s' -> reach toks s s'.
Proof. intros L J T. exists 1%nat. intro f. cbn [Nat.add render_loop]. rewrite L. replace (r_j s <=? size_of line) with true by lia. rewrite T. reflexivity. Qed.

Lemma turn_open line t ts i a ctx : line = t :: ts -> inert t -> render_turn line (mk_rs i 0 [] [] [NText a] ctx false) = Ok (mk_rs i 0 [N_p] [(i, 0)] [NText a; NText []] true false).
Proof.
  intros -> I. unfold render_turn. replace (if ctx then (0, -1) else put_line_in_context [] (t :: ts)) with (0, -1).
  2:{ destruct ctx; [reflexivity|]. unfold put_line_in_context. cbn [ctx_loop]. destruct (_ <? 0); reflexivity. }
  cbn [Z.leb Z.compare andb]. rewrite ?andb_false_r. cbn [andb]. replace (0 <? size_of (t :: ts)) with true by (unfold size_of; cbn [length]; lia). cbn [Z.to_nat nth].
  rewrite (inert_block t [] I (or_introl eq_refl)). cbn [is_empty app Z.add]. unfold end_turn. cbn [r_j]. replace (size_of (t :: ts) <=? 0) with false by (unfold size_of; cbn [length]; lia). reflexivity.
Qed.
Lemma put_cont t : inert t -> put_line_in_context [N_p] [t] = (0, -1).
Proof.
  intros (_ & h & r & -> & N). unfold put_line_in_context. cbn [ctx_loop size_of length Z.of_nat Pos.of_succ_nat Z.ltb Z.compare negb Z.to_nat nth]. change (hd 0 N_p =? 117) with false. change (beqb N_p N_li) with false. change (beqb N_p N_blockquote) with false.
  change (hd 0 N_p =? 104) with false. change (beqb N_p N_fenced) with false. change (beqb N_p N_indented) with false. change (hd 0 N_p =? 112) with true.
  replace (one_of (h :: r) [[]; B "#"; B "##"]) with false; [reflexivity|]. symmetry. unfold one_of. cbn [existsb]. replace (beqb (h :: r) (B "#")) with false by (symmetry; apply beqb_head, head_ne; [exact N|vm_compute; tauto]). replace (beqb (h :: r) (B "##")) with false by (symmetry; apply beqb_head, head_ne; [exact N|vm_compute; tauto]). destruct (beqb (h :: r) []) eqn:E; [apply beqb_eq in E; discriminate|reflexivity].
Qed.
Lemma turn_tok pre t post i cps a b (ctx : bool) : (ctx = true \/ pre = [] /\ post = []) -> inert t ->
  render_turn (pre ++ t :: post) (mk_rs i (size_of pre) [N_p] cps [NText a; NText b] ctx false) =
  Ok (if is_empty post then mk_rs (S i) 0 [N_p] cps [NText a; NText (b ++ t ++ [10])] false false
      else mk_rs i (size_of (pre ++ [t])) [N_p] cps [NText a; NText (b ++ t)] true false).
Proof.
  intros C I. unfold render_turn. replace (if ctx then (size_of pre, -1) else put_line_in_context [N_p] (pre ++ t :: post)) with (size_of pre, -1).
  2:{ destruct C as [-> |[-> ->]]; [reflexivity|]. cbn [app]. rewrite (put_cont t I). destruct ctx; reflexivity. }
  cbn [Z.leb Z.compare andb]. rewrite ?andb_false_r. cbn [andb]. assert (LT : size_of pre < size_of (pre ++ t :: post)) by (unfold size_of; rewrite app_length; cbn [length]; lia). replace (size_of pre <? size_of (pre ++ t :: post)) with true by lia.
  replace (nth (Z.to_nat (size_of pre)) (pre ++ t :: post) []) with t by (unfold size_of; rewrite Nat2Z.id, app_nth2, Nat.sub_diag by lia; reflexivity).
  rewrite (inert_block t [N_p] I (or_intror eq_refl)). cbn [is_empty]. rewrite (inert_span t _ I). cbn [bind is_empty last]. change (one_of N_p [N_a; N_img]) with false. change (beqb N_p N_p) with true. cbn [andb].
  unfold append_text. cbn [last removelast bind app]. unfold end_turn. cbn [r_j r_i r_stack r_cps r_accu r_skip]. destruct post as [|x post]; cbn [is_empty].
  - replace (size_of pre =? size_of (pre ++ [t]) - 1) with true by (unfold size_of; rewrite app_length; cbn [length]; lia). replace (size_of (pre ++ [t]) <=? size_of pre + 1) with true by (unfold size_of; rewrite app_length; cbn [length]; lia). reflexivity.
  - replace (size_of pre =? size_of (pre ++ t :: x :: post) - 1) with false by (unfold size_of; rewrite app_length; cbn [length]; lia). replace (size_of (pre ++ t :: x :: post) <=? size_of pre + 1) with false by (unfold size_of; rewrite app_length; cbn [length]; lia).
    rewrite app_nil_r. replace (size_of (pre ++ [t])) with (size_of pre + 1) by (unfold size_of; rewrite app_length; cbn [length]; lia). reflexivity.
Qed.
Lemma line_reach toks line i cps a : nth_error toks i = Some line -> Forall inert line -> forall post pre t b, line = pre ++ t :: post ->
  reach toks (mk_rs i (size_of pre) [N_p] cps [NText a; NText b] true false) (mk_rs (S i) 0 [N_p] cps [NText a; NText (b ++ concat (t :: post) ++ [10])] false false).
Proof.
  intros L F. induction post as [|x post IH]; intros pre t b E.
  - cbn [concat]. rewrite app_nil_r. apply (reach_turn toks line); [exact L|cbn; rewrite E; unfold size_of; rewrite app_length; lia|]. rewrite E. rewrite (turn_tok pre t [] i cps a b true); [reflexivity|auto|]. rewrite Forall_forall in F. apply F. rewrite E. apply in_or_app. right. now left.
  - apply (reach_trans _ _ (mk_rs i (size_of (pre ++ [t])) [N_p] cps [NText a; NText (b ++ t)] true false)).
    + apply (reach_turn toks line); [exact L|cbn; rewrite E; unfold size_of; rewrite app_length; lia|]. rewrite E. rewrite (turn_tok pre t (x :: post) i cps a b true); [reflexivity|auto|]. rewrite Forall_forall in F. apply F. rewrite E. apply in_or_app. right. now left.
    + replace (b ++ concat (t :: x :: post) ++ [10]) with ((b ++ t) ++ concat (x :: post) ++ [10]) by (cbn [concat]; rewrite <- !app_assoc; reflexivity). apply IH. rewrite E, <- app_assoc. reflexivity.
Qed.
Lemma turn_close i cps a b cp : render_turn [[]] (mk_rs i 0 [N_p] (cps ++ [cp]) [NText a; NText b] false false) = Ok (mk_rs i 0 [] cps [NText (a ++ [10] ++ B "<p>" ++ b ++ B "</p>")] false false).
Proof.
  unfold render_turn. change (put_line_in_context [N_p] [[]]) with (0, 0). cbn [negb Z.leb Z.compare andb size_of length Z.of_nat Pos.of_succ_nat Z.sub Z.add Z.opp Z.pos_sub Z.ltb last removelast]. change (one_of N_p [N_a; N_obj; N_url]) with false. cbn [app].
  unfold html_text. change (one_of N_p [N_fenced; N_indented]) with false. change (one_of N_p [N_a; N_img]) with false. change (beqb N_p N_hr) with false. cbn [bind]. unfold append_text. cbn [last removelast bind]. change (beqb N_p N_a) with false. rewrite removelast_last. reflexivity.
Qed.
Lemma turn_blank i a : render_turn [[]] (mk_rs i 0 [] [] [NText a] false false) = Ok (mk_rs (S i) 0 [] [] [NText a] false false).
Proof. reflexivity. Qed.

Lemma blank_reach : forall n toks past rest a, toks = past ++ repeat [[]] n ++ rest ->
  reach toks (mk_rs (length past) 0 [] [] [NText a] false false) (mk_rs (length (past ++ repeat [[]] n)) 0 [] [] [NText a] false false).
Proof.
  induction n as [|n IH]; intros toks past rest a E; [cbn [repeat]; rewrite app_nil_r; apply reach_refl|]. apply (reach_trans _ _ (mk_rs (S (length past)) 0 [] [] [NText a] false false)).
  - apply (reach_turn toks [[]]); [|cbn; lia|apply turn_blank]. rewrite E. cbn [repeat app r_i]. rewrite nth_error_app2, Nat.sub_diag by lia. reflexivity.
  - assert (G : toks = (past ++ [[[]]]) ++ repeat [[]] n ++ rest) by (rewrite E; cbn [repeat app]; rewrite <- app_assoc; reflexivity). specialize (IH toks _ rest a G). cbn [repeat]. rewrite <- app_assoc in IH. cbn [app] in IH. rewrite app_length in IH. cbn [length] in IH. rewrite Nat.add_1_r in IH. exact IH.
Qed.
Lemma words_reach : forall rest toks past after cps a b, toks = past ++ map (fun l => [l]) rest ++ after -> Forall inert rest ->
  reach toks (mk_rs (length past) 0 [N_p] cps [NText a; NText b] false false) (mk_rs (length past + length rest) 0 [N_p] cps [NText a; NText (b ++ lines_text rest)] false false).
Proof.
  induction rest as [|l rest IH]; intros toks past after cps a b E F.
  - cbn [length lines_text flat_map]. rewrite Nat.add_0_r, app_nil_r. apply reach_refl.
  - apply (reach_trans _ _ (mk_rs (S (length past)) 0 [N_p] cps [NText a; NText (b ++ l ++ [10])] false false)).
    + apply (reach_turn toks [l]); [|cbn; lia|]. { rewrite E. cbn [map app r_i]. rewrite nth_error_app2, Nat.sub_diag by lia. reflexivity. }
      exact (turn_tok [] l [] (length past) cps a b false (or_intror (conj eq_refl eq_refl)) (Forall_inv F)).
    + assert (G : toks = (past ++ [[l]]) ++ map (fun l => [l]) rest ++ after) by (rewrite E; cbn [map app]; rewrite <- app_assoc; reflexivity). specialize (IH toks _ after cps a (b ++ l ++ [10]) G (Forall_inv_tail F)).
      rewrite app_length in IH. cbn [length] in IH. rewrite Nat.add_1_r in IH. cbn [length]. rewrite Nat.add_succ_r. unfold lines_text in *. cbn [flat_map]. rewrite <- app_assoc in IH. exact IH.
Qed.
Definition para_toks (first : list bytes) (p : para) : list (list bytes) := let '(_, r, n) := p in first :: map (fun l => [l]) r ++ repeat [[]] (S n).
Lemma para_reach first p toks past after a (ctx : bool) : toks = past ++ para_toks first p ++ after -> concat first = fst (fst p) -> first <> [] -> Forall inert first -> Forall inert (snd (fst p)) ->
  reach toks (mk_rs (length past) 0 [] [] [NText a] ctx false) (mk_rs (length (past ++ para_toks first p)) 0 [] [] [NText (a ++ para_html p)] false false).
Proof.
  destruct p as [[l r] n]. cbn [fst snd]. intros E CF NE F1 F2. cbn [para_toks] in *. destruct first as [|t ts] eqn:FE; [congruence|]. rewrite <- FE in *. assert (L0 : nth_error toks (length past) = Some first) by (rewrite E; cbn [app]; rewrite nth_error_app2, Nat.sub_diag by lia; reflexivity).
  apply (reach_trans _ _ (mk_rs (length past) 0 [N_p] [(length past, 0)] [NText a; NText []] true false)).
  { apply (reach_turn toks first); [exact L0|cbn; unfold size_of; lia|]. apply (turn_open first t ts); [exact FE|]. rewrite FE in F1. exact (Forall_inv F1). }
  eapply reach_trans; [exact (line_reach toks first (length past) [(length past, 0)] a L0 F1 ts [] t [] FE)|]. rewrite <- FE, CF. cbn [app].
  assert (E2 : toks = (past ++ [first]) ++ map (fun l => [l]) r ++ (repeat [[]] (S n) ++ after)) by (rewrite E; cbn [app]; rewrite <- !app_assoc; reflexivity).
  pose proof (words_reach r toks (past ++ [first]) _ [(length past, 0)] a (l ++ [10]) E2 F2) as W. rewrite app_length in W. cbn [length] in W. rewrite (Nat.add_1_r (length past)) in W. eapply reach_trans; [exact W|]. clear W.
  assert (E3 : toks = (past ++ [first] ++ map (fun l => [l]) r) ++ repeat [[]] (S n) ++ after) by (rewrite E2, <- !app_assoc; reflexivity).
  assert (LP : (S (length past) + length r)%nat = length (past ++ [first] ++ map (fun l => [l]) r)) by (rewrite !app_length, map_length; cbn [length]; lia). rewrite LP.
  apply (reach_trans _ _ (mk_rs (length (past ++ [first] ++ map (fun l => [l]) r)) 0 [] [] [NText (a ++ para_html (l, r, n))] false false)).
  - apply (reach_turn toks [[]]); [|cbn; lia|]. { cbn [r_i]. rewrite E3 at 1. cbn [repeat app]. rewrite nth_error_app2, Nat.sub_diag by lia. reflexivity. }
    rewrite (turn_close _ [] a ((l ++ [10]) ++ lines_text r) (length past, 0)). cbn [para_html]. unfold lines_text at 2. cbn [flat_map]. fold (lines_text r). reflexivity.
  - pose proof (blank_reach (S n) toks _ after (a ++ para_html (l, r, n)) E3) as BR. rewrite <- !app_assoc in BR. cbn [app] in BR |- *. exact BR.
Qed.

(* lines and their tokens *)
Lemma para_ordinary l : para_line l -> ordinary l.
Proof.
  intros [S N C H LL SP]. rewrite Forall_forall in C. assert (NI : forall k, In k (B "#`~>*+-<_![") -> ~ In k l) by (intros k K I; exact (C k I K)). constructor.
  - apply NI. vm_compute. tauto.
  - apply NI. vm_compute. tauto.
  - intros c r ->. cbn in H. split; [exact H|]. split; intros ->; eapply (NI _); [| now left| |now left]; vm_compute; tauto.
  - exact LL.
  - intros a x y b E X _. apply (C x); [rewrite E; apply in_or_app; right; now left|]. vm_compute in X. vm_compute. tauto.
  - intros (c & Ic & A & K). assert (In c l) by (apply (count_occ_In Z.eq_dec); lia). apply (C c H0). vm_compute in Ic. vm_compute. tauto.
Qed.
Lemma blank_ordinary : ordinary [].
Proof.
  constructor; [intros []|intros []|discriminate|cbn; lia| |].
  - intros a x y b E. destruct a; discriminate.
  - intros (c & _ & _ & K). cbn in K. lia.
Qed.
Lemma para_inert l toks : para_line l -> concat toks = l -> Forall tok_kind toks -> Forall inert toks.
Proof.
  intros P C K. rewrite Forall_forall in *. intros t I. destruct (in_split _ _ I) as (u & v & E). split.
  - intros ->. apply (pl_spaces _ P (concat u) (concat v)). rewrite <- C, E, concat_app. reflexivity.
  - pose proof (tok_kind_ne _ (K t I)) as NE. destruct t as [|h r]; [congruence|]. exists h, r. split; [reflexivity|]. pose proof (pl_chars _ P) as PC. rewrite Forall_forall in PC. apply PC. rewrite <- C. apply in_concat. exists (h :: r). split; [exact I|now left].
Qed.
Lemma first_tokens l toks : para_line l -> tokens_of l toks -> concat toks = l /\ toks <> [] /\ Forall inert toks.
Proof.
  intros P [[E _]|(_ & C & K & _)]; [destruct (pl_some _ P E)|]. split; [exact C|]. split; [intros ->; apply (pl_some _ P); rewrite <- C; reflexivity|eapply para_inert; eauto].
Qed.
Lemma word_tokens l toks : para_line l -> is_word l -> tokens_of l toks -> toks = [l] /\ inert l.
Proof.
  intros P W T. destruct (first_tokens l toks P T) as (C & NE & I). assert (E : toks = [l]).
  { destruct T as [[E _]|(_ & _ & K & PF)]; [destruct (pl_some _ P E)|]. destruct toks as [|x [|y toks]]; [congruence| |].
    - cbn in C. rewrite app_nil_r in C. now rewrite C.
    - exfalso. unfold is_word in *. rewrite Forall_forall in W. apply (PF [] x y toks eq_refl); apply Forall_forall; intros c Ic; apply W; rewrite <- C; apply in_concat; eexists; (split; [|exact Ic]); cbn; auto. }
  split; [exact E|]. subst toks. exact (Forall_inv I).
Qed.
Lemma blank_tokens toks : tokens_of [] toks -> toks = [[]].
Proof. intros [[_ ->]|(N & C & K & _)]; [reflexivity|]. destruct toks as [|t r]; [congruence|]. exfalso. cbn in C. apply app_eq_nil in C. apply (tok_kind_ne _ (Forall_inv K)), C. Qed.

Lemma blank_lines n : forall toks, Forall2 tokens_of (repeat [] n) toks -> toks = repeat [[]] n.
Proof. induction n as [|n IH]; intros toks F; cbn [repeat] in *; inversion F; subst; [reflexivity|]. f_equal; [now apply blank_tokens|now apply IH]. Qed.
Lemma rest_lines : forall r toks, Forall (fun l => para_line l /\ is_word l) r -> Forall2 tokens_of r toks -> toks = map (fun l => [l]) r /\ Forall inert r.
Proof.
  induction r as [|l r IH]; intros toks P F; inversion F as [|? t ? ts T TS]; subst; [split; [reflexivity|constructor]|]. destruct (Forall_inv P) as [P1 P2]. destruct (word_tokens l t P1 P2 T) as [-> I]. destruct (IH ts (Forall_inv_tail P) TS) as [-> I2]. split; [reflexivity|constructor; auto].
Qed.
Lemma para_tokens p toks : para_ok p -> Forall2 tokens_of (para_lines p) toks -> exists first, toks = para_toks first p /\ concat first = fst (fst p) /\ first <> [] /\ Forall inert first /\ Forall inert (snd (fst p)).
Proof.
  destruct p as [[l r] n]. intros [P1 P2] F. cbn [para_lines] in F. inversion F as [|? t ? ts T TS]; subst. destruct (first_tokens l t P1 T) as (C & NE & I). apply Forall2_app_inv_l in TS. destruct TS as (t1 & t2 & F1 & F2 & ->). destruct (rest_lines r t1 P2 F1) as [-> I2]. rewrite (blank_lines (S n) _ F2). exists t. cbn [para_toks fst snd]. auto.
Qed.
Lemma paras_reach : forall ps toks past ts after a (ctx : bool), Forall para_ok ps -> Forall2 tokens_of (flat_map para_lines ps) ts -> toks = past ++ ts ++ after -> ps <> [] ->
  reach toks (mk_rs (length past) 0 [] [] [NText a] ctx false) (mk_rs (length (past ++ ts)) 0 [] [] [NText (a ++ flat_map para_html ps)] false false).
Proof.
  induction ps as [|p ps IH]; intros toks past ts after a ctx P F E NE; [congruence|]. cbn [flat_map] in F. apply Forall2_app_inv_l in F. destruct F as (t1 & t2 & F1 & F2 & ->).
  destruct (para_tokens p t1 (Forall_inv P) F1) as (first & -> & C & N & I1 & I2). cbn [flat_map]. rewrite <- app_assoc in E.
  pose proof (para_reach first p toks past (t2 ++ after) a ctx E C N I1 I2) as R. destruct ps as [|q ps].
  - inversion F2; subst t2. cbn [flat_map]. rewrite !app_nil_r. exact R.
  - eapply reach_trans; [exact R|]. rewrite !app_assoc. apply (IH toks (past ++ para_toks first p) t2 after); [exact (Forall_inv_tail P)|exact F2|rewrite E, <- app_assoc; reflexivity|discriminate].
Qed.
Lemma end_run (toks past : list (list bytes)) a f : toks = past ++ [[[]]] -> render_loop (S (S f)) toks (mk_rs (length past) 0 [] [] [NText a] false false) = Ok a.
Proof.
  intros E. assert (N1 : nth_error toks (length past) = Some [[]]) by (rewrite E, nth_error_app2, Nat.sub_diag by lia; reflexivity). assert (N2 : nth_error toks (S (length past)) = None) by (rewrite E; apply nth_error_None; rewrite app_length; cbn [length]; lia).
  cbn [render_loop r_i]. rewrite N1. cbn [ r_j size_of length Z.of_nat Pos.of_succ_nat Z.leb Z.compare]. rewrite turn_blank. cbn [bind r_i r_accu].
  rewrite N2. reflexivity.
Qed.
Theorem transform_spec ps : Forall para_ok ps -> exists f0, forall fuel, (f0 <= fuel)%nat -> transform fuel (lines_text (flat_map para_lines ps)) = Ok (flat_map para_html ps).
Proof.
  intros P. destruct (tokenize_spec (flat_map para_lines ps)) as (ts & E & F).
  { apply Forall_forall. intros l I. apply in_flat_map in I. destruct I as ([[f r] n] & Ip & Il). rewrite Forall_forall in P. destruct (P _ Ip) as [P1 P2]. cbn [para_lines] in Il. destruct Il as [<-|Il]; [split; [now apply para_ordinary|apply P1]|]. apply in_app_or in Il. destruct Il as [Il|Il].
    - rewrite Forall_forall in P2. destruct (P2 l Il) as [P3 _]. split; [now apply para_ordinary|apply P3].
    - apply repeat_spec in Il. subst l. split; [apply blank_ordinary|intros []]. }
  unfold transform. rewrite E. cbn [bind]. unfold render. destruct ps as [|p ps].
  - inversion F; subst ts. exists 3%nat. intros fuel L. destruct fuel as [|[|[|fuel]]]; [lia|lia|lia|]. reflexivity.
  - destruct (paras_reach (p :: ps) ([[[]]; [[]]] ++ ts ++ [[[]]]) [[[]]; [[]]] ts [[[]]] [] true P F eq_refl ltac:(discriminate)) as [n R].
    exists (n + 2)%nat. intros fuel L. replace fuel with (n + S (S (fuel - n - 2)))%nat by lia. change (length [[[]]; [[]]]) with 2%nat in R. rewrite R.
    apply end_run. now rewrite <- app_assoc.
Qed.
