(* Proofs about transform on titles and paragraphs *)
From Coq Require Import String.
From Verif Require Import PyBase Model_Objects Model_Filestruct Model_Markdown Model_MdTokens Model_MdRender Spec_Syntax Spec_MdTokens Spec_MdRender Spec_MdTitles.
From Verif Require Import Facts_Base Facts_Spell Facts_MdTokens Facts_MdRender.
From Coq Require Import ZifyBool ZifyNat.

(* ---------- tokens of a title ---------- *)
Definition full (t : bytes) : Prop := t <> [].
Definition title_inv (n : nat) (p tok : bytes) (line : list bytes) : Prop :=
  (line = [] /\ tok = p /\ exists k, (k <= n)%nat /\ p = repeat 35 k) \/
  (exists p' ln, p = repeat 35 n ++ 32 :: p' /\ line = repeat 35 n :: ln /\ concat ln ++ tok = p' /\ Forall full ln).
Lemma all_hash n : (1 <= n)%nat -> all_of 35 (repeat 35 n) = true.
Proof. intro H. unfold all_of. destruct n; [lia|]. cbn [repeat truthy_b andb]. change (35 :: repeat 35 n) with (repeat 35 (S n)). apply forallb_forall. intros x I. apply repeat_spec in I. subst x. reflexivity. Qed.
Lemma not_spaces n : all_of 32 (repeat 35 n) = false.
Proof. destruct n; reflexivity. Qed.
Lemma split_repeat : forall k n c q l0, repeat 35 n ++ 32 :: l0 = repeat 35 k ++ c :: q -> (k <= n)%nat -> ((k < n)%nat /\ c = 35) \/ (k = n /\ c = 32 /\ q = l0).
Proof.
  induction k as [|k IH]; intros n c q l0 E L; destruct n as [|n]; cbn [repeat app] in E; [right; injection E as -> ->; auto|left; injection E as -> _; split; [lia|reflexivity]|lia|].
  injection E as E. destruct (IH n c q l0 E ltac:(lia)) as [[A A']|(A & A' & A'')]; [left; split; [lia|exact A']|right; split; [lia|auto]].
Qed.
Lemma title_step n l0 : (1 <= n)%nat -> para_line l0 -> forall p c q tok line, repeat 35 n ++ 32 :: l0 = p ++ c :: q -> title_inv n p tok line ->
  exists tok' line', tok_char tok line false c = Ok (tok', line', false) /\ title_inv n (p ++ [c]) tok' line' /\ beqb (last line' []) [10] = false.
Proof.
  intros N1 P p c q tok line E [(-> & -> & k & K & ->)|(p' & ln & -> & -> & TC & TF)].
  - destruct (split_repeat k n c q l0 E K) as [[L ->]|(-> & -> & _)].
    + exists (repeat 35 (S k)), []. split; [|split; [|reflexivity]].
      * unfold tok_char. cbn [Z.eqb Pos.eqb orb negb andb is_empty inb existsb]. rewrite not_spaces. cbn [andb]. change (existsb (Z.eqb 35) marks) with false. cbn [app]. rewrite <- repeat_cons. reflexivity.
      * left. split; [reflexivity|]. split; [cbn [repeat]; apply repeat_cons|]. exists (S k). split; [lia|]. cbn [repeat]. symmetry. apply repeat_cons.
    + exists [], [repeat 35 n]. split; [|split].
      * unfold tok_char. cbn [Z.eqb Pos.eqb orb negb andb is_empty]. rewrite (all_hash n N1). reflexivity.
      * right. exists [], []. split; [reflexivity|]. split; [reflexivity|]. split; [reflexivity|constructor].
      * cbn [last]. destruct n; [lia|]. reflexivity.
  - rewrite <- app_assoc in E. cbn [app] in E. apply app_inv_head in E. injection E as E. pose proof (pl_chars _ P) as C. rewrite Forall_forall in C. assert (IC : In c l0) by (rewrite E; apply in_or_app; right; now left). specialize (C c IC).
    pose proof (fun k => head_ne c k C) as HN. assert (C10 : c <> 10) by (intros ->; exact (pl_one _ P IC)).
    assert (N60 : c <> 60) by (apply HN; vm_compute; tauto). assert (N45 : c <> 45) by (apply HN; vm_compute; tauto). assert (N96 : c <> 96) by (apply HN; vm_compute; tauto). assert (N42 : c <> 42) by (apply HN; vm_compute; tauto). assert (N95 : c <> 95) by (apply HN; vm_compute; tauto).
    assert (T : tok_char tok (repeat 35 n :: ln) false c = Ok (if inb c marks then [] else tok ++ [c], if inb c marks then (repeat 35 n :: ln) ++ (if truthy_b tok then [tok] else []) ++ [[c]] else repeat 35 n :: ln, false)).
    { unfold tok_char. replace (c =? 60) with false by lia. replace (c =? 45) with false by lia. replace (c =? 96) with false by lia. replace (inb c [42; 95]) with false by (unfold inb; cbn [existsb]; lia). cbn [orb is_empty]. rewrite !andb_false_r. cbn [andb]. destruct (inb c marks); reflexivity. }
    rewrite T. do 2 eexists. split; [reflexivity|]. assert (A10 : ~ In 10 (p' ++ [c])). { intro I. apply (pl_one _ P). rewrite E. apply in_app_or in I. apply in_or_app. destruct I as [I|[I|[]]]; [auto|]. right. now left. }
    assert (INV : exists ln', (if inb c marks then (repeat 35 n :: ln) ++ (if truthy_b tok then [tok] else []) ++ [[c]] else repeat 35 n :: ln) = repeat 35 n :: ln' /\ concat ln' ++ (if inb c marks then [] else tok ++ [c]) = p' ++ [c] /\ Forall full ln').
    { destruct (inb c marks).
      - exists (ln ++ (if truthy_b tok then [tok] else []) ++ [[c]]). split; [reflexivity|]. split.
        + rewrite app_nil_r, !concat_app. rewrite <- TC. cbn [concat]. rewrite app_nil_r. destruct tok; cbn [truthy_b concat]; rewrite ?app_nil_r, <- ?app_assoc; reflexivity.
        + apply Forall_app. split; [exact TF|]. apply Forall_app. split; [|constructor; [discriminate|constructor]]. destruct tok; constructor; [discriminate|constructor].
      - exists ln. split; [reflexivity|]. split; [rewrite app_assoc, TC; reflexivity|exact TF]. }
    destruct INV as (ln' & I1 & I2 & I3). split.
    + right. exists (p' ++ [c]), ln'. split; [rewrite <- app_assoc; reflexivity|]. auto.
    + rewrite I1. match goal with |- ?x = false => destruct x eqn:B10 end; [|reflexivity]. exfalso. apply beqb_eq in B10. destruct ln' as [|x ln'] using rev_ind.
      * cbn [last] in B10. destruct n; [lia|]. discriminate.
      * change (repeat 35 n :: ln' ++ [x]) with ((repeat 35 n :: ln') ++ [x]) in B10. rewrite last_last in B10. subst x. apply A10. rewrite <- I2, concat_app. cbn. apply in_or_app. left. apply in_or_app. right. now left.
Qed.
Lemma run_inv (I : bytes -> bytes -> list bytes -> Prop) pre l r : (pre = [] \/ last pre 0 = 10) -> ~ In 10 l -> quiet (pre ++ l ++ 10 :: r) (blen pre) ->
  (forall p c q tok line, l = p ++ c :: q -> I p tok line -> exists tok' line', tok_char tok line false c = Ok (tok', line', false) /\ I (p ++ [c]) tok' line' /\ beqb (last line' []) [10] = false) ->
  forall q p f tok line res ls, l = p ++ q -> I p tok line ->
  exists tok' line', tok_loop (length q + f) (pre ++ l ++ 10 :: r) (blen (pre ++ p)) tok line false res ls = tok_loop f (pre ++ l ++ 10 :: r) (blen (pre ++ l)) tok' line' false res ls /\ I l tok' line'.
Proof.
  intros P N Q ST. induction q as [|c q IH]; intros p f tok line res ls E TS.
  - rewrite app_nil_r in E. subst p. exists tok, line. auto.
  - destruct (ST p c q tok line E TS) as (t' & l' & T & TS' & B10). cbn [length Nat.add].
    rewrite (turn _ _ (pre ++ p) c (q ++ 10 :: r) tok line res ls t' l' false); [|rewrite E, <- !app_assoc; reflexivity| |exact T].
    + unfold tok_line. rewrite B10, andb_false_r. rewrite <- app_assoc. apply IH; [rewrite E, <- app_assoc; reflexivity|exact TS'].
    + intros H. destruct p as [|x p]; [rewrite app_nil_r in *; exact Q|].
      exfalso. destruct H as [H|H]; [destruct pre; discriminate|]. rewrite last_app in H by discriminate. apply N. rewrite E. apply in_or_app. left. rewrite <- H. destruct (exists_last (l := x :: p) ltac:(discriminate)) as (m & y & ->). rewrite last_last. apply in_or_app. right. now left.
Qed.
Definition title_toks (n : nat) (l : bytes) (toks : list bytes) : Prop := exists ln, toks = repeat 35 n :: ln /\ ln <> [] /\ concat ln = l /\ Forall full ln.
Lemma title_run pre n l r res ls f (P : pre = [] \/ last pre 0 = 10) : (1 <= n)%nat -> para_line l -> let t := repeat 35 n ++ 32 :: l in
  exists toks, tok_loop (length t + 1 + f) (pre ++ t ++ 10 :: r) (blen pre) [] [] false res ls = tok_loop f (pre ++ t ++ 10 :: r) (blen (pre ++ t ++ [10])) [] [] false (res ++ [toks]) ls /\ title_toks n l toks.
Proof.
  intros N1 PL t. assert (NT : ~ In 10 t). { intro I. apply in_app_or in I. destruct I as [I|[I|I]]; [apply repeat_spec in I; lia|lia|exact (pl_one _ PL I)]. }
  assert (H35 : exists q, t = 35 :: q) by (unfold t; destruct n; [lia|]; cbn; eauto). destruct H35 as [q0 Q0].
  assert (NH : ~ hrule t). { intros (c & Ic & A & _). rewrite Q0 in A. apply Forall_inv in A. destruct A as [A|A]; [|lia]. subst c. vm_compute in Ic. intuition discriminate. }
  assert (QU : quiet (pre ++ t ++ 10 :: r) (blen pre)). { apply (quiet_line _ pre t 35 (q0 ++ 10 :: r)); [|exact NH|rewrite Q0; reflexivity|lia|lia]. split; [exact NT|]. exists (10 :: r). eauto. }
  rewrite <- Nat.add_assoc. assert (I0 : title_inv n [] [] []) by (left; split; [reflexivity|]; split; [reflexivity|]; exists 0%nat; split; [lia|reflexivity]).
  destruct (run_inv (title_inv n) pre t r P NT QU (title_step n l N1 PL) t [] (1 + f)%nat [] [] res ls eq_refl I0) as (tok & line & E & INV). rewrite app_nil_r in E. rewrite E. clear E. cbn [Nat.add].
  destruct INV as [(_ & _ & k & K & X)|(p' & ln & X & -> & TC & TF)].
  { exfalso. assert (In 32 (repeat 35 k)) by (rewrite <- X; unfold t; apply in_or_app; right; now left). apply repeat_spec in H. lia. }
  unfold t in X. apply app_inv_head in X. injection X as <-. set (ln' := ln ++ (if truthy_b tok then [tok] else [])).
  assert (T : tok_char tok (repeat 35 n :: ln) false 10 = Ok ([], (repeat 35 n :: ln') ++ [[10]], false)).
  { unfold tok_char, ln'. cbn [Z.eqb Pos.eqb orb negb andb is_empty]. cbn [inb existsb Z.eqb Pos.eqb orb andb]. change (inb 10 marks) with true. cbn [app]. rewrite <- app_assoc. reflexivity. }
  rewrite (turn _ _ (pre ++ t) 10 r tok (repeat 35 n :: ln) res ls [] ((repeat 35 n :: ln') ++ [[10]]) false); [|rewrite <- app_assoc; reflexivity| |exact T].
  - assert (C : concat ln' = l). { unfold ln'. rewrite concat_app, <- TC. f_equal. destruct tok; [reflexivity|]. cbn [truthy_b concat]. apply app_nil_r. }
    assert (K : Forall full ln'). { unfold ln'. apply Forall_app. split; [exact TF|]. destruct tok; [constructor|]. constructor; [discriminate|constructor]. } clearbody ln'.
    assert (NE : ln' <> []) by (intros ->; apply (pl_some _ PL); rewrite <- C; reflexivity).
    assert (A : forall k, k = 61 \/ k = 45 -> all_of k (last (repeat 35 n :: ln') []) = false).
    { intros k Hk. destruct (exists_last NE) as (m & x & X). rewrite X in *. change (repeat 35 n :: m ++ [x]) with ((repeat 35 n :: m) ++ [x]). rewrite last_last. apply Forall_app in K. destruct K as [_ K]. apply Forall_inv in K. unfold full in K.
      destruct (exists_last K) as (w & y & ->). destruct (all_of k (w ++ [y])) eqn:AO; [|reflexivity]. exfalso. unfold all_of in AO. apply andb_true_iff in AO. destruct AO as [_ A2]. rewrite forallb_forall in A2. specialize (A2 y ltac:(apply in_or_app; right; now left)).
      assert (KY : k = y) by lia. subst y. rewrite concat_app in C. cbn [concat] in C. rewrite app_nil_r, app_assoc in C. destruct Hk as [-> | ->].
      - apply (pl_last _ PL). rewrite <- C. apply last_last.
      - pose proof (pl_chars _ PL) as PC. rewrite Forall_forall in PC. apply (PC 45); [rewrite <- C; apply in_or_app; right; now left|vm_compute; tauto]. }
    exists (repeat 35 n :: ln'). split; [|exists ln'; auto].
    unfold tok_line. rewrite last_last, removelast_last. cbn [is_empty negb andb app]. change (beqb [10] [10]) with true. cbn [andb]. match goal with |- context [all_of 61 ?x] => replace (all_of 61 x) with false by (symmetry; exact (A 61 (or_introl eq_refl))) end. match goal with |- context [all_of 45 ?x] => replace (all_of 45 x) with false by (symmetry; exact (A 45 (or_intror eq_refl))) end. rewrite <- app_assoc. reflexivity.
  - intros H. exfalso. destruct H as [H|H]; [rewrite Q0 in H; destruct pre; discriminate|]. rewrite last_app in H by (rewrite Q0; discriminate). apply NT. rewrite <- H. assert (TN : t <> []) by (rewrite Q0; discriminate). destruct (exists_last TN) as (m & y & ->). rewrite last_last. apply in_or_app. right. now left.
Qed.

(* ---------- lines ---------- *)
Inductive line_kind : bytes -> list bytes -> Prop :=
| Lk_plain l toks : ordinary l -> ~ In 10 l -> tokens_of l toks -> line_kind l toks
| Lk_title n l toks : (1 <= n)%nat -> para_line l -> title_toks n l toks -> line_kind (repeat 35 n ++ 32 :: l) toks.
Definition line_fine (l : bytes) : Prop := (ordinary l /\ ~ In 10 l) \/ exists n m, (1 <= n)%nat /\ para_line m /\ l = repeat 35 n ++ 32 :: m.
Lemma fine_run pre l r res ls f (P : pre = [] \/ last pre 0 = 10) : line_fine l ->
  exists toks, tok_loop (length l + 1 + f) (pre ++ l ++ 10 :: r) (blen pre) [] [] false res ls = tok_loop f (pre ++ l ++ 10 :: r) (blen (pre ++ l ++ [10])) [] [] false (res ++ [toks]) ls /\ line_kind l toks.
Proof.
  intros [[O N]|(n & m & N & PL & ->)].
  - destruct (line_run pre l r res ls f P O N) as (t & E & T). exists t. split; [exact E|]. now constructor.
  - destruct (title_run pre n m r res ls f P N PL) as (t & E & T). exists t. split; [exact E|]. now constructor.
Qed.
Lemma fine_lines : forall lines pre res f (P : pre = [] \/ last pre 0 = 10), Forall line_fine lines ->
  exists toks, tok_loop (length (lines_text lines) + S f) (pre ++ lines_text lines) (blen pre) [] [] false res [] = Ok (res ++ toks ++ [[[]]], []) /\ Forall2 line_kind lines toks.
Proof.
  induction lines as [|l lines IH]; intros pre res f P F.
  - exists []. cbn [lines_text flat_map length Nat.add]. rewrite app_nil_r. cbn [tok_loop]. rewrite Z.ltb_irrefl. cbn. split; [reflexivity|constructor].
  - pose proof (Forall_inv F) as O. unfold lines_text. cbn [flat_map]. fold (lines_text lines). rewrite app_length. cbn [length]. rewrite app_length. cbn [length].
    rewrite <- (app_assoc l [10]). cbn [app].
    destruct (fine_run pre l (lines_text lines) res [] (length (lines_text lines) + S f) P O) as (t & E & T). rewrite <- !Nat.add_assoc in *. rewrite E.
    replace (pre ++ l ++ 10 :: lines_text lines) with ((pre ++ l ++ [10]) ++ lines_text lines) by (rewrite <- !app_assoc; reflexivity).
    destruct (IH (pre ++ l ++ [10]) (res ++ [t]) f) as (ts & E2 & F2); [right; rewrite !app_assoc, last_last; reflexivity|exact (Forall_inv_tail F)|]. rewrite E2. exists (t :: ts). rewrite <- !app_assoc. split; [reflexivity|constructor; auto].
Qed.
Lemma kind_plain l toks : hd 0 l <> 35 -> line_kind l toks -> tokens_of l toks.
Proof. intros H K. inversion K as [? ? _ _ T|n m ? N1 _ _]; subst; [exact T|]. exfalso. apply H. destruct n; [lia|reflexivity]. Qed.
Lemma kind_title n l toks : (1 <= n)%nat -> para_line l -> line_kind (repeat 35 n ++ 32 :: l) toks -> title_toks n l toks.
Proof.
  intros N1 P K. inversion K as [? ? O _ _|k m ? K1 _ T E]; subst.
  - exfalso. destruct n as [|n]; [lia|]. destruct (or_head _ O 35 (repeat 35 n ++ 32 :: l) eq_refl) as (_ & X & _). lia.
  - assert (G : k = n /\ m = l). { clear - E. revert k E. induction n as [|n IH]; intros [|k] E; cbn [repeat app] in E; try discriminate; [injection E as ->; auto|]. injection E as E. destruct (IH k E) as [-> ->]. auto. }
    destruct G as [-> ->]. exact T.
Qed.
Lemma kind_ne l toks : line_kind l toks -> toks <> [].
Proof. intros [? ? _ _ T|n m t _ _ (ln & -> & _)]; [|discriminate]. destruct T as [[_ ->]|[T _]]; [discriminate|exact T]. Qed.

(* ---------- rendering of a title ---------- *)
Definition hn (n : nat) : bytes := 104 :: dec (Z.of_nat n).
Lemma one_of_head h r (l : list bytes) : Forall (fun x => exists k s, x = k :: s /\ h <> k) l -> one_of (h :: r) l = false.
Proof. unfold one_of. induction 1 as [|x l (k & s & -> & N) _ IH]; [reflexivity|]. cbn [existsb]. rewrite (beqb_head h r k s N). exact IH. Qed.
Ltac heads := apply one_of_head; repeat (constructor; [do 2 eexists; split; [reflexivity|lia]|]); constructor.
Lemma hn_block t n : inert t -> detect_new_block t [hn n] = (None, 0).
Proof.
  intros (S & h & r & -> & N). pose proof (fun k => head_ne h k N) as HN. unfold detect_new_block. cbn [is_empty negb last andb orb].
  replace (one_of (hn n) [N_indented; N_fenced; N_code]) with false by (symmetry; unfold hn; heads).
  replace (all_of 35 (h :: r)) with false. 2:{ symmetry. unfold all_of. cbn [truthy_b andb forallb]. replace (35 =? h) with false; [reflexivity|]. symmetry. apply Z.eqb_neq. intro X. apply (HN 35); [vm_compute; tauto|auto]. }
  replace (is_fence (h :: r)) with false. 2:{ symmetry. unfold is_fence. apply orb_false_iff. split; apply beqb_head; apply HN; vm_compute; tauto. }
  replace (beqb (h :: r) (B "    ")) with false. 2:{ symmetry. destruct (beqb (h :: r) (B "    ")) eqn:E; [|reflexivity]. apply beqb_eq in E. contradiction. }
  replace (beqb (h :: r) (B ">")) with false by (symmetry; apply beqb_head, HN; vm_compute; tauto).
  replace (occurs_in (h :: r) (B "-*+")) with false by (symmetry; apply inert_occurs; intros k I; apply HN; vm_compute in I; vm_compute; tauto).
  replace (occurs_in (h :: r) (B "*+-")) with false by (symmetry; apply inert_occurs; intros k I; apply HN; vm_compute in I; vm_compute; tauto).
  replace (beqb (h :: r) T_hr) with false by (symmetry; apply beqb_head, HN; vm_compute; tauto).
  rewrite !andb_false_r. reflexivity.
Qed.
Lemma hn_span t n prev : inert t -> detect_span t [hn n] prev = Ok SNothing.
Proof.
  intros (S & h & r & -> & N). pose proof (fun k => head_ne h k N) as HN. unfold detect_span.
  replace (beqb (h :: r) (B "`")) with false by (symmetry; apply beqb_head, HN; vm_compute; tauto).
  replace (beqb (h :: r) (B "_")) with false by (symmetry; apply beqb_head, HN; vm_compute; tauto).
  replace (beqb (h :: r) (B "__")) with false by (symmetry; apply beqb_head, HN; vm_compute; tauto).
  replace (beqb (h :: r) (B "!")) with false by (symmetry; apply beqb_head, HN; vm_compute; tauto).
  replace (beqb (h :: r) (B "[")) with false by (symmetry; apply beqb_head, HN; vm_compute; tauto).
  cbn [is_empty negb last andb bind]. assert (HH : forall k s, 104 <> k -> beqb (hn n) (k :: s) = false) by (intros; apply beqb_head; assumption).
  replace (beqb (hn n) N_url) with false by (symmetry; apply HH; lia). replace (beqb (hn n) N_obj) with false by (symmetry; apply HH; lia). replace (beqb (hn n) N_link_id) with false by (symmetry; apply HH; lia). replace (beqb (hn n) N_a) with false by (symmetry; apply HH; lia). cbn [andb].
  destruct (beqb (h :: r) (B "]")); [reflexivity|]. destruct (beqb (h :: r) (B "(")); [reflexivity|]. destruct (beqb (h :: r) (B ")")); [reflexivity|]. destruct (beqb (h :: r) (B ")]")); reflexivity.
Qed.
Lemma title_open n (x : bytes) (ln : list bytes) i a ctx : (1 <= n)%nat -> render_turn (repeat 35 n :: x :: ln) (mk_rs i 0 [] [] [NText a] ctx false) = Ok (mk_rs i 1 [hn n] [(i, 1)] [NText a; NText []] true false).
Proof.
  intros N1. unfold render_turn. set (line := repeat 35 n :: x :: ln). replace (if ctx then (0, -1) else put_line_in_context [] line) with (0, -1).
  2:{ destruct ctx; [reflexivity|]. unfold put_line_in_context. cbn [ctx_loop]. destruct (_ <? 0); reflexivity. }
  cbn [Z.leb Z.compare andb]. rewrite ?andb_false_r. cbn [andb]. change (nth (Z.to_nat 0) line []) with (repeat 35 n). match goal with |- context [if ?b then repeat 35 n else []] => replace b with true by (symmetry; apply Z.ltb_lt; unfold size_of, line; cbn [length]; lia) end.
  unfold detect_new_block. cbn [is_empty negb andb]. rewrite (all_hash n N1). cbn [app Z.add]. unfold end_turn. cbn [r_j]. match goal with |- context [if ?b then _ else _] => replace b with false by (symmetry; apply Z.leb_gt; unfold size_of, line; cbn [length]; lia) end.
  unfold hn. replace (blen (repeat 35 n)) with (Z.of_nat n) by (unfold blen; rewrite repeat_length; reflexivity). reflexivity.
Qed.
Lemma title_tok n pre t post i cps a b : inert t ->
  render_turn (pre ++ t :: post) (mk_rs i (size_of pre) [hn n] cps [NText a; NText b] true false) =
  Ok (if is_empty post then mk_rs (S i) 0 [hn n] cps [NText a; NText (b ++ t)] false false
      else mk_rs i (size_of (pre ++ [t])) [hn n] cps [NText a; NText (b ++ t)] true false).
Proof.
  intros I. unfold render_turn.
  cbn [negb Z.leb Z.compare andb]. assert (LT : size_of pre < size_of (pre ++ t :: post)) by (unfold size_of; rewrite app_length; cbn [length]; lia). replace (size_of pre <? size_of (pre ++ t :: post)) with true by lia.
  replace (nth (Z.to_nat (size_of pre)) (pre ++ t :: post) []) with t by (unfold size_of; rewrite Nat2Z.id, app_nth2, Nat.sub_diag by lia; reflexivity).
  rewrite (hn_block t n I). rewrite (hn_span t n _ I). cbn [bind is_empty last]. replace (one_of (hn n) [N_a; N_img]) with false by (symmetry; unfold hn; heads). replace (beqb (hn n) N_p) with false by (symmetry; apply beqb_head; lia). cbn [andb].
  unfold append_text. cbn [last removelast bind app]. rewrite app_nil_r. unfold end_turn. cbn [r_j r_i r_stack r_cps r_accu r_skip]. destruct post as [|x post]; cbn [is_empty].
  - replace (size_of (pre ++ [t]) <=? size_of pre + 1) with true by (unfold size_of; rewrite app_length; cbn [length]; lia). reflexivity.
  - replace (size_of (pre ++ t :: x :: post) <=? size_of pre + 1) with false by (unfold size_of; rewrite app_length; cbn [length]; lia).
    replace (size_of (pre ++ [t])) with (size_of pre + 1) by (unfold size_of; rewrite app_length; cbn [length]; lia). reflexivity.
Qed.
Lemma title_words n toks line i cps a : nth_error toks i = Some line -> forall post pre t b, line = pre ++ t :: post -> Forall inert (t :: post) ->
  reach toks (mk_rs i (size_of pre) [hn n] cps [NText a; NText b] true false) (mk_rs (S i) 0 [hn n] cps [NText a; NText (b ++ concat (t :: post))] false false).
Proof.
  intros L. induction post as [|x post IH]; intros pre t b E F.
  - cbn [concat]. rewrite app_nil_r. apply (reach_turn toks line); [exact L|cbn; rewrite E; unfold size_of; rewrite app_length; lia|]. rewrite E. rewrite (title_tok n pre t [] i cps a b (Forall_inv F)). reflexivity.
  - apply (reach_trans _ _ (mk_rs i (size_of (pre ++ [t])) [hn n] cps [NText a; NText (b ++ t)] true false)).
    + apply (reach_turn toks line); [exact L|cbn; rewrite E; unfold size_of; rewrite app_length; lia|]. rewrite E. rewrite (title_tok n pre t (x :: post) i cps a b (Forall_inv F)). reflexivity.
    + replace (b ++ concat (t :: x :: post)) with ((b ++ t) ++ concat (x :: post)) by (cbn [concat]; rewrite <- !app_assoc; reflexivity). apply IH; [rewrite E, <- app_assoc; reflexivity|exact (Forall_inv_tail F)].
Qed.
Lemma dec_not_r n s : 104 :: dec (Z.of_nat n) <> 104 :: 114 :: s.
Proof.
  intro E. injection E as E. destruct (dec_text (Z.of_nat n) ltac:(lia)) as (_ & D & _). unfold dec in E. replace (Z.of_nat n <? 0) with false in E by lia. rewrite E in D. apply Forall_inv in D. vm_compute in D. intuition discriminate.
Qed.
Lemma title_close n line i cp a b : line <> [] -> render_turn line (mk_rs i 0 [hn n] [cp] [NText a; NText b] false false) =
  Ok (mk_rs i 0 [] [] [NText (a ++ [10] ++ B "<h" ++ dec (Z.of_nat n) ++ B ">" ++ b ++ B "</h" ++ dec (Z.of_nat n) ++ B ">")] false false).
Proof.
  intros NE. unfold render_turn. assert (HH : forall k s, 104 <> k -> beqb (hn n) (k :: s) = false) by (intros; apply beqb_head; assumption).
  replace (put_line_in_context [hn n] line) with (0, 0).
  2:{ unfold put_line_in_context. cbn [ctx_loop length]. replace (0 <? size_of line) with true by (unfold size_of; destruct line; [congruence|cbn [length]; lia]). cbn [negb]. replace (hd 0 (hn n) =? 117) with false by reflexivity. replace (beqb (hn n) N_li) with false by (symmetry; apply HH; lia).
      replace (beqb (hn n) N_blockquote) with false by (symmetry; apply HH; lia). change (hd 0 (hn n) =? 104) with true. cbn. replace (size_of line - 1 <? 0) with false by (unfold size_of; destruct line; [congruence|cbn [length]; lia]). reflexivity. }
  cbn [negb Z.leb Z.compare andb size_of length Z.of_nat Pos.of_succ_nat Z.sub Z.add Z.opp Z.pos_sub Z.ltb last removelast]. replace (one_of (hn n) [N_a; N_obj; N_url]) with false by (symmetry; unfold hn; heads).
  unfold html_text. replace (one_of (hn n) [N_fenced; N_indented]) with false by (symmetry; unfold hn; heads). replace (one_of (hn n) [N_a; N_img]) with false by (symmetry; unfold hn; heads).
  replace (beqb (hn n) N_hr) with false. 2:{ symmetry. destruct (beqb (hn n) N_hr) eqn:E; [|reflexivity]. apply beqb_eq in E. exfalso. exact (dec_not_r _ _ E). }
  cbn [bind]. unfold append_text. cbn [last removelast bind]. replace (beqb (hn n) N_a) with false by (symmetry; apply HH; lia). change (inb (hd 0 (hn n)) (B "phbuo")) with true. reflexivity.
Qed.
Definition mdb_toks (b : mdblock) (toks : list (list bytes)) : Prop :=
  match b with
  | MdPara p => exists first, toks = para_toks first p /\ concat first = fst (fst p) /\ first <> [] /\ Forall inert first /\ Forall inert (snd (fst p))
  | MdTitle n l k => exists ln, toks = (repeat 35 n :: ln) :: repeat [[]] k /\ ln <> [] /\ concat ln = l /\ Forall inert ln
  end.
Lemma title_reach n l k ts toks past after a (ctx : bool) : (1 <= n)%nat -> mdb_toks (MdTitle n l k) ts -> toks = past ++ ts ++ after -> after <> [] -> Forall (fun x => x <> []) toks ->
  reach toks (mk_rs (length past) 0 [] [] [NText a] ctx false) (mk_rs (length (past ++ ts)) 0 [] [] [NText (a ++ mdb_html (MdTitle n l k))] false false).
Proof.
  intros N1 (ln & -> & NE & C & I) E NA NT. destruct ln as [|x ln]; [congruence|]. set (line := repeat 35 n :: x :: ln) in *.
  assert (L0 : nth_error toks (length past) = Some line) by (rewrite E; cbn [app]; rewrite nth_error_app2, Nat.sub_diag by lia; reflexivity).
  apply (reach_trans _ _ (mk_rs (length past) 1 [hn n] [(length past, 1)] [NText a; NText []] true false)).
  { apply (reach_turn toks line); [exact L0|cbn; unfold size_of; lia|]. exact (title_open n x ln (length past) a ctx N1). }
  eapply reach_trans; [exact (title_words n toks line (length past) [(length past, 1)] a L0 ln [repeat 35 n] x [] eq_refl I)|]. match goal with |- context [concat ?y] => replace (concat y) with l by (symmetry; exact C) end. cbn [app].
  assert (E2 : toks = (past ++ [line]) ++ repeat [[]] k ++ after) by (rewrite E; cbn [app]; rewrite <- !app_assoc; reflexivity). assert (LP : length (past ++ [line]) = S (length past)) by (rewrite app_length; cbn; lia).
  assert (NX : exists y, nth_error toks (S (length past)) = Some y /\ y <> []).
  { assert (E3 : exists y r, toks = (past ++ [line]) ++ y :: r) by (destruct k as [|k]; [destruct after as [|y r]; [congruence|]; exists y, r; exact E2|exists [[]], (repeat [[]] k ++ after); exact E2]).
    destruct E3 as (y & r & E3). exists y. split; [rewrite E3, <- LP, nth_error_app2, Nat.sub_diag by lia; reflexivity|]. rewrite Forall_forall in NT. apply NT. rewrite E3. apply in_or_app. right. now left. }
  destruct NX as (y & Y1 & Y2). apply (reach_trans _ _ (mk_rs (S (length past)) 0 [] [] [NText (a ++ mdb_html (MdTitle n l k))] false false)).
  - apply (reach_turn toks y); [exact Y1|cbn; unfold size_of; lia|]. rewrite (title_close n y (S (length past)) _ a l Y2). reflexivity.
  - rewrite <- LP. pose proof (blank_reach k toks (past ++ [line]) after (a ++ mdb_html (MdTitle n l k)) E2) as BR. rewrite <- app_assoc in BR. cbn [app] in BR. exact BR.
Qed.

(* ---------- texts ---------- *)
Lemma blank_kinds k : forall toks, Forall2 line_kind (repeat [] k) toks -> toks = repeat [[]] k.
Proof. induction k as [|k IH]; intros toks F; cbn [repeat] in *; inversion F as [|? ? ? ? K1 K2]; subst; [reflexivity|]. f_equal; [apply blank_tokens, kind_plain; [discriminate|exact K1]|now apply IH]. Qed.
Lemma plain_kinds : forall ls toks, Forall (fun l => hd 0 l <> 35) ls -> Forall2 line_kind ls toks -> Forall2 tokens_of ls toks.
Proof. intros ls toks H F. revert H. induction F as [|l t ls ts K _ IH]; intro H; [constructor|]. constructor; [exact (kind_plain l t (Forall_inv H) K)|apply IH, (Forall_inv_tail H)]. Qed.
Lemma para_hd l : para_line l -> hd 0 l <> 35.
Proof. intros P. pose proof (pl_chars _ P) as C. destruct l as [|c l]; [discriminate|]. cbn [hd]. intros ->. apply (Forall_inv C). vm_compute. tauto. Qed.
Lemma full_inert l ln : para_line l -> concat ln = l -> Forall full ln -> Forall inert ln.
Proof.
  intros P C K. rewrite Forall_forall in *. intros t I. destruct (in_split _ _ I) as (u & v & E). split.
  - intros ->. apply (pl_spaces _ P (concat u) (concat v)). rewrite <- C, E, concat_app. reflexivity.
  - pose proof (K t I) as NE. destruct t as [|h r]; [destruct (NE eq_refl)|]. exists h, r. split; [reflexivity|]. pose proof (pl_chars _ P) as PC. rewrite Forall_forall in PC. apply PC. rewrite <- C. apply in_concat. exists (h :: r). split; [exact I|now left].
Qed.
Lemma mdb_tokens b toks : mdb_ok b -> Forall2 line_kind (mdb_lines b) toks -> mdb_toks b toks.
Proof.
  destruct b as [p|n l k]; cbn [mdb_ok mdb_lines mdb_toks].
  - intros P F. apply (para_tokens p toks P). apply plain_kinds; [|exact F]. destruct p as [[f r] m]. destruct P as [P1 P2]. cbn [para_lines]. constructor; [now apply para_hd|]. apply Forall_app. split.
    + eapply Forall_impl; [|exact P2]. intros x [X _]. now apply para_hd.
    + apply Forall_forall. intros x I. apply repeat_spec in I. subst x. discriminate.
  - intros [N1 P] F. inversion F as [|? t ? ts K KS]; subst. destruct (kind_title n l t N1 P K) as (ln & -> & NE & C & FU). exists ln. split; [f_equal; now apply blank_kinds|]. split; [exact NE|]. split; [exact C|]. exact (full_inert l ln P C FU).
Qed.
Lemma mdb_fine b : mdb_ok b -> Forall line_fine (mdb_lines b).
Proof.
  destruct b as [[[f r] m]|n l k]; cbn [mdb_ok mdb_lines para_lines].
  - intros [P1 P2]. constructor; [left; split; [now apply para_ordinary|apply P1]|]. apply Forall_app. split.
    + eapply Forall_impl; [|exact P2]. intros x [X _]. left. split; [now apply para_ordinary|apply X].
    + apply Forall_forall. intros x I. apply repeat_spec in I. subst x. left. split; [apply blank_ordinary|intros []].
  - intros [N1 P]. constructor; [right; exists n, l; auto|]. apply Forall_forall. intros x I. apply repeat_spec in I. subst x. left. split; [apply blank_ordinary|intros []].
Qed.
Lemma blocks_reach : forall bs toks past ts after a (ctx : bool), Forall mdb_ok bs -> Forall2 line_kind (flat_map mdb_lines bs) ts -> toks = past ++ ts ++ after -> after <> [] -> Forall (fun x => x <> []) toks -> bs <> [] ->
  reach toks (mk_rs (length past) 0 [] [] [NText a] ctx false) (mk_rs (length (past ++ ts)) 0 [] [] [NText (a ++ flat_map mdb_html bs)] false false).
Proof.
  induction bs as [|b bs IH]; intros toks past ts after a ctx P F E NA NT NE; [congruence|]. cbn [flat_map] in F. apply Forall2_app_inv_l in F. destruct F as (t1 & t2 & F1 & F2 & ->).
  pose proof (mdb_tokens b t1 (Forall_inv P) F1) as MT. cbn [flat_map]. rewrite <- app_assoc in E.
  assert (R : reach toks (mk_rs (length past) 0 [] [] [NText a] ctx false) (mk_rs (length (past ++ t1)) 0 [] [] [NText (a ++ mdb_html b)] false false)).
  { pose proof (Forall_inv P) as PB. destruct b as [p|n l k].
    - destruct MT as (first & -> & C & N & I1 & I2). exact (para_reach first p toks past (t2 ++ after) a ctx E C N I1 I2).
    - apply (title_reach n l k t1 toks past (t2 ++ after)); [apply PB|exact MT|exact E| |exact NT]. intro X. apply app_eq_nil in X. tauto. }
  destruct bs as [|q bs].
  - inversion F2; subst t2. cbn [flat_map]. rewrite !app_nil_r. exact R.
  - eapply reach_trans; [exact R|]. rewrite !app_assoc. apply (IH toks (past ++ t1) t2 after); [exact (Forall_inv_tail P)|exact F2|rewrite E, <- app_assoc; reflexivity|exact NA|exact NT|discriminate].
Qed.
Theorem transform_blocks bs : Forall mdb_ok bs -> exists f0, forall fuel, (f0 <= fuel)%nat -> transform fuel (lines_text (flat_map mdb_lines bs)) = Ok (flat_map mdb_html bs).
Proof.
  intros P. assert (FL : Forall line_fine (flat_map mdb_lines bs)).
  { apply Forall_forall. intros l I. apply in_flat_map in I. destruct I as (b & Ib & Il). rewrite Forall_forall in P. pose proof (mdb_fine b (P b Ib)) as M. rewrite Forall_forall in M. auto. }
  destruct (fine_lines (flat_map mdb_lines bs) [] [[[]]; [[]]] 0 (or_introl eq_refl) FL) as (ts & E & F). rewrite Nat.add_1_r in E. cbn [app] in E.
  unfold transform, tokenize. change (blen []) with 0 in E. rewrite E. cbn [bind]. unfold render. destruct bs as [|b bs].
  - inversion F; subst ts. exists 3%nat. intros fuel L. destruct fuel as [|[|[|fuel]]]; [lia|lia|lia|]. reflexivity.
  - assert (NT : Forall (fun x : list bytes => x <> []) ([[[]]; [[]]] ++ ts ++ [[[]]])).
    { apply Forall_app. split; [repeat (constructor; [discriminate|]); constructor|]. apply Forall_app. split; [|constructor; [discriminate|constructor]]. clear - F. induction F; constructor; [eapply kind_ne; eauto|assumption]. }
    destruct (blocks_reach (b :: bs) ([[[]]; [[]]] ++ ts ++ [[[]]]) [[[]]; [[]]] ts [[[]]] [] true P F eq_refl ltac:(discriminate) NT ltac:(discriminate)) as [n R].
    exists (n + 2)%nat. intros fuel L. replace fuel with (n + S (S (fuel - n - 2)))%nat by lia. change (length [[[]]; [[]]]) with 2%nat in R. cbn [app] in R |- *. rewrite R.
    apply (end_run _ ([[[]]; [[]]] ++ ts)). rewrite <- app_assoc. reflexivity.
Qed.
