(* C102: xref tables as other programs write them *)
From Coq Require Import String ZifyBool ZifyNat.
From Verif Require Import PyBase Model_Filters Model_Objects Model_Filestruct Model_Docstruct Spec_Objects Spec_Filestruct Spec_Api Spec_Foreign Spec_Syntax Spec_Files.
From Verif Require Import Facts_Base Facts_Filters Facts_Token Facts_Obj Facts_Ser Facts_Parse Facts_Top Facts_Stream Facts_Indirect Facts_Revision Facts_Prov Facts_Write Facts_Xref Facts_Syntax Facts_Stored Facts_Chain.

(* ---------- lines ---------- *)
Lemma nline_any line : forall st cur c r, noeol line -> eol c ->
  nline (Some st) cur (line ++ c :: r) = Some (st, (cur + length line)%nat).
Proof.
  induction line as [|x line IH]; intros st cur c r N E.
  - cbn [app nline]. replace (inb c EOL) with true by (destruct E as [-> | ->]; reflexivity). cbn [length]. f_equal. f_equal. lia.
  - inversion N; subst. cbn [app nline]. replace (inb x EOL) with false by (symmetry; apply inb_eol; auto).
    rewrite IH by auto. cbn [length]. f_equal. f_equal. lia.
Qed.
Lemma next_line_run pre e line c r : Forall eol e -> noeol line -> line <> [] -> eol c ->
  next_line (pre ++ e ++ line ++ c :: r) (length pre) = Some (length (pre ++ e), (length (pre ++ e) + length line)%nat).
Proof.
  intros E N NE C. unfold next_line. rewrite skipn_app_len.
  assert (G : forall cur, nline None cur (e ++ line ++ c :: r) = Some ((cur + length e)%nat, (cur + length e + length line)%nat)).
  { induction E as [|x e X E IH]; intros cur; cbn [app length].
    - destruct line as [|y line]; [congruence|]. inversion N; subst. cbn [app nline]. replace (inb y EOL) with false by (symmetry; apply inb_eol; auto).
      rewrite nline_any by auto. cbn [length]. f_equal. f_equal; lia.
    - cbn [nline]. replace (inb x EOL) with true by (destruct X as [-> | ->]; reflexivity). rewrite IH. f_equal. f_equal; lia. }
  rewrite G, app_length. reflexivity.
Qed.
Lemma strip_blanks s a b m sp : s = a :: m ++ [b] -> a <> 32 -> b <> 32 -> blanks sp -> strip [32] (s ++ sp) = s.
Proof.
  intros -> A Bq SP. unfold strip. cbn [app lstrip]. replace (inb a [32]) with false by (cbn; lia).
  change (a :: (m ++ [b]) ++ sp) with ((a :: m ++ [b]) ++ sp). rewrite rev_app_distr.
  assert (G : forall l r, Forall (fun c => c = 32) l -> lstrip [32] (l ++ r) = lstrip [32] r).
  { induction 1 as [|x l -> F IH]; auto. }
  rewrite G by (apply Forall_rev; exact SP). change (a :: m ++ [b]) with ((a :: m) ++ [b]). rewrite rev_app_distr. cbn [rev app lstrip].
  replace (inb b [32]) with false by (cbn; lia). cbn [rev].
  rewrite !rev_app_distr. cbn [rev app]. rewrite rev_involutive. reflexivity.
Qed.
Lemma split_ws_run a sp r : a <> [] -> Forall (fun c => inb c WS = false) a -> sp <> [] -> blanks sp ->
  split_ws (a ++ sp ++ r) = a :: split_ws r.
Proof.
  intros NE F S1 SP. destruct sp as [|x sp]; [congruence|]. inversion SP; subst. change (a ++ (32 :: sp) ++ r) with (a ++ [32] ++ sp ++ r).
  rewrite split_ws_2 by auto. f_equal. clear -H2. induction H2 as [|x sp -> F IH]; auto.
Qed.
Lemma dec_isdig s : Forall decdigit s -> Forall isdig s.
Proof. auto. Qed.
Lemma brk_eol e : line_break e -> Forall eol e /\ exists c r, e = c :: r /\ eol c /\ Forall eol r.
Proof.
  unfold eol. intros [-> | [-> | ->]]; (split; [repeat constructor; lia|]); [exists 10, []|exists 13, []|exists 13, [10]]; (split; [reflexivity|split; [lia|repeat constructor; lia]]).
Qed.

(* a line is read from its text *)
Inductive line_as : xline -> bytes -> Prop :=
| la_sub a sp b : digits a -> digits b -> sp <> [] -> blanks sp -> line_as (XSub (decimal a) (decimal b)) (a ++ sp ++ b)
| la_ent a b kw n : digits a -> digits b -> (kw = [102] \/ kw = [110]) -> line_as (XEnt (decimal a) n (decimal b) kw) (a ++ [32] ++ b ++ [32] ++ kw).
Inductive rows_as : list xline -> bytes -> Prop :=
| ra_nil : rows_as [] []
| ra_cons l ls body sp e s : line_as l body -> blanks sp -> line_break e -> rows_as ls s -> rows_as (l :: ls) (body ++ sp ++ e ++ s).
Lemma noeol_blanks s : blanks s -> noeol s.
Proof. intro F. eapply Forall_impl; [|exact F]. cbn. lia. Qed.
Lemma line_as_facts l body : line_as l body -> noeol body /\ exists c m b, body = c :: m ++ [b] /\ 48 <= c <= 57 /\ b <> 32.
Proof.
  assert (AP : forall a b, noeol a -> noeol b -> noeol (a ++ b)) by (intros; apply Forall_app; auto).
  assert (DG : forall a, digits a -> noeol a) by (intros a [_ D]; apply noeol_dig; exact D).
  destruct 1 as [a sp b DA DB NS SP|a b kw n DA DB K]; pose proof (DG _ DA) as EA; pose proof (DG _ DB) as EB; destruct DA as [NA FA]; destruct DB as [NB FB].
  - split; [apply AP; auto; apply AP; auto; apply noeol_blanks; auto|]. destruct (dig_split a FA NA) as (c & r & -> & C). destruct (dig_last b FB NB) as (m & y & -> & Y).
    exists c, (r ++ sp ++ m), y. split; [rewrite <- !app_assoc; reflexivity|auto].
  - destruct (dig_split a FA NA) as (c & r & -> & C). split.
    + apply AP; auto. apply AP; [repeat constructor; lia|]. apply AP; auto. apply AP; [repeat constructor; lia|]. destruct K as [-> | ->]; repeat constructor; lia.
    + destruct K as [-> | ->]; [exists c, (r ++ [32] ++ b ++ [32]), 102|exists c, (r ++ [32] ++ b ++ [32]), 110]; (split; [cbn [app]; rewrite <- !app_assoc; cbn [app]; rewrite <- !app_assoc; reflexivity|lia]).
Qed.
Lemma digits_int a : digits a -> py_int 10 a = Some (decimal a).
Proof. intros [N F]. apply (digits_token a N F). Qed.
Lemma digits_ws a : digits a -> Forall (fun c => inb c WS = false) a.
Proof. intros [_ F]. apply isdig_ws. exact F. Qed.
Lemma rows_read ls s : rows_as ls s -> forall pre e o fuel sp c rest, Forall eol e -> numbered o ls -> (length ls < fuel)%nat -> blanks sp -> eol c ->
  let t := pre ++ e ++ s ++ W_trailer ++ sp ++ c :: rest in
  xref_lines fuel t o (next_line t (length pre)) = Ok (ls, length (pre ++ e ++ s ++ W_trailer ++ sp)).
Proof.
  induction 1 as [|l ls body bl br s LA BL BR R IH]; intros pre e o fuel sp c rest E NU LF SP C t; (destruct fuel as [|fuel]; [cbn in LF; lia|]).
  - unfold t. cbn [app]. replace (pre ++ e ++ W_trailer ++ sp ++ c :: rest) with (pre ++ e ++ (W_trailer ++ sp) ++ c :: rest) by (rewrite <- !app_assoc; reflexivity).
    rewrite next_line_run; auto; [|apply Forall_app; split; [repeat constructor; lia|apply noeol_blanks; auto]|discriminate]. cbn [xref_lines].
    replace (sub _ _ (S (length (pre ++ e)))) with [116]. { change ((48 <=? 116) && (116 <=? 57)) with false. cbn iota. do 2 f_equal. rewrite !app_length. lia. }
    symmetry. replace (pre ++ e ++ (W_trailer ++ sp) ++ c :: rest) with ((pre ++ e) ++ [116] ++ skipn 1 W_trailer ++ sp ++ c :: rest) by (rewrite <- !app_assoc; reflexivity).
    apply sub_app_exact; cbn [length]; lia.
  - destruct (line_as_facts _ _ LA) as (NE & c0 & m & b0 & EB & C0 & B0). destruct (brk_eol br BR) as (BE & c1 & br' & EBR & C1 & BE').
    set (R0 := s ++ W_trailer ++ sp ++ c :: rest).
    assert (ET : t = pre ++ e ++ (body ++ bl) ++ c1 :: br' ++ R0) by (unfold t, R0; rewrite EBR; rewrite <- !app_assoc; cbn [app]; rewrite <- ?app_assoc; reflexivity).
    assert (NL : next_line t (length pre) = Some (length (pre ++ e), (length (pre ++ e) + length (body ++ bl))%nat)).
    { rewrite ET. apply next_line_run; auto; [apply Forall_app; split; auto; apply noeol_blanks; auto|rewrite EB; discriminate]. }
    rewrite NL. cbn [xref_lines].
    assert (S1 : sub t (length (pre ++ e)) (S (length (pre ++ e))) = [c0]).
    { rewrite ET, EB. replace (pre ++ e ++ ((c0 :: m ++ [b0]) ++ bl) ++ c1 :: br' ++ R0) with ((pre ++ e) ++ [c0] ++ (m ++ [b0]) ++ bl ++ c1 :: br' ++ R0) by (rewrite <- !app_assoc; cbn [app]; rewrite <- !app_assoc; reflexivity). apply sub_app_exact; cbn [length]; lia. }
    assert (S2 : sub t (length (pre ++ e)) (length (pre ++ e) + length (body ++ bl)) = body ++ bl).
    { rewrite ET, app_assoc. apply sub_app_exact; lia. }
    rewrite S1, S2, (strip_blanks body c0 b0 m bl) by (auto; lia). replace ((48 <=? c0) && (c0 <=? 57)) with true by lia.
    assert (NX : forall o', numbered o' ls -> xref_lines fuel t o' (next_line t (length (pre ++ e) + length (body ++ bl))) = Ok (ls, length (pre ++ e ++ (body ++ bl ++ br ++ s) ++ W_trailer ++ sp))).
    { intros o' NU'. specialize (IH (pre ++ e ++ body ++ bl) br o' fuel sp c rest BE NU' ltac:(cbn [length] in LF; lia) SP C). cbn zeta in IH.
      replace ((pre ++ e ++ body ++ bl) ++ br ++ s ++ W_trailer ++ sp ++ c :: rest) with t in IH by (unfold t; rewrite <- !app_assoc; reflexivity).
      replace (length (pre ++ e ++ body ++ bl)) with (length (pre ++ e) + length (body ++ bl))%nat in IH by (rewrite !app_length; lia).
      rewrite IH. f_equal. f_equal. rewrite !app_length. lia. }
    clear EB. inversion LA as [a s1 b DA DB NS BS|a b kw n DA DB K]; subst l body; cbn [numbered] in NU.
    + rewrite split_ws_run by (auto using digits_ws; apply DA). rewrite split_ws_nospace by (auto using digits_ws; apply DB). rewrite !digits_int by auto. cbn [of_opt bind]. rewrite NX by auto. reflexivity.
    + rewrite split_ws_2 by (auto using digits_ws; apply DA). rewrite split_ws_2 by (auto using digits_ws; apply DB). replace (split_ws kw) with [kw] by (destruct K as [-> | ->]; reflexivity).
      rewrite !digits_int by auto. cbn [of_opt bind]. destruct NU as [-> NU]. rewrite NX by auto. reflexivity.
Qed.

(* ---------- the lines of the subsections ---------- *)
Fixpoint ent_lines (n : Z) (es : list tabent) : list xline :=
  match es with [] => [] | x :: r => XEnt (te_off x) n (te_gen x) (if te_use x then [110] else [102]) :: ent_lines (n + 1) r end.
Definition sub_lines (l : list (Z * list tabent)) : list xline :=
  flat_map (fun p => XSub (fst p) (Z.of_nat (length (snd p))) :: ent_lines (fst p) (snd p)) l.
Lemma ent_rows es t : entry_lines es t -> forall n ls s, rows_as ls s -> rows_as (ent_lines n es ++ ls) (t ++ s).
Proof.
  induction 1 as [|x t l s0 E _ IH]; intros n ls s R; auto. cbn [ent_lines app]. destruct E as [a b k sp e DA DB SP BR]. cbn [te_off te_gen te_use].
  replace (((a ++ [32] ++ b ++ [32] ++ [if k then 110 else 102] ++ sp ++ e) ++ s0) ++ s) with ((a ++ [32] ++ b ++ [32] ++ (if k then [110] else [102])) ++ sp ++ e ++ s0 ++ s)
    by (destruct k; rewrite <- ?app_assoc; cbn [app]; rewrite <- ?app_assoc; cbn [app]; rewrite <- ?app_assoc; reflexivity).
  constructor; auto. apply la_ent; auto. destruct k; auto.
Qed.
Lemma sub_rows l t : subsections l t -> rows_as (sub_lines l) t.
Proof.
  induction 1 as [|a b s1 s2 e es t l s DA DB NS B1 B2 BR LB EL _ IH]; [constructor|]. unfold sub_lines. cbn [flat_map fst snd app]. fold (sub_lines l). rewrite <- LB.
  replace (a ++ s1 ++ b ++ s2 ++ e ++ t ++ s) with ((a ++ s1 ++ b) ++ s2 ++ e ++ t ++ s) by (rewrite <- !app_assoc; reflexivity).
  constructor; auto; [constructor; auto|]. apply ent_rows; auto.
Qed.
Lemma sub_numbered l : forall o, numbered o (sub_lines l).
Proof.
  induction l as [|[n es] l IH]; intro o; [exact Logic.I|]. unfold sub_lines. cbn [flat_map fst snd app numbered]. fold (sub_lines l).
  revert n. induction es as [|x es IHe]; intro n; cbn [ent_lines app numbered]; auto.
Qed.
Lemma rows_count ls s : rows_as ls s -> (length ls <= length s)%nat.
Proof.
  induction 1 as [|l ls body sp e s LA SP BR _ IH]; auto. destruct (line_as_facts _ _ LA) as (_ & c & m & b & -> & _). cbn [length app]. rewrite !app_length. lia.
Qed.
Lemma rows_not_t ls s : rows_as ls s -> ~ In 116 s.
Proof.
  induction 1 as [|l ls body sp e s LA SP BR _ IH]; [cbn; auto|]. intro I.
  assert (DG : forall a, digits a -> ~ In 116 a). { intros a [_ D] I'. rewrite Forall_forall in D. apply D in I'. unfold decdigit in I'. lia. }
  assert (BG : forall a, blanks a -> ~ In 116 a). { intros a D I'. red in D. rewrite Forall_forall in D. apply D in I'. lia. }
  apply in_app_or in I as [I|I].
  - destruct LA as [a s1 b DA DB NS BS|a b kw n DA DB K].
    + apply in_app_or in I as [I|I]; [exact (DG _ DA I)|]. apply in_app_or in I as [I|I]; [exact (BG _ BS I)|exact (DG _ DB I)].
    + apply in_app_or in I as [I|I]; [exact (DG _ DA I)|]. apply in_app_or in I as [[I|[]]|I]; [lia|]. apply in_app_or in I as [I|I]; [exact (DG _ DB I)|]. destruct K as [-> | ->]; cbn in I; lia.
  - apply in_app_or in I as [I|I]; [exact (BG _ SP I)|]. apply in_app_or in I as [I|I]; [|auto]. destruct BR as [-> | [-> | ->]]; cbn in I; lia.
Qed.

Definition used (l : list (Z * list tabent)) : list ient := flat_map xtab_entry (sub_lines l).
Lemma sub_checked l : forallb xtab_check (sub_lines l) = true.
Proof.
  induction l as [|[n es] l IH]; [reflexivity|]. unfold sub_lines. cbn [flat_map fst snd app forallb xtab_check andb]. fold (sub_lines l). rewrite forallb_app, IH, andb_true_r.
  revert n. induction es as [|x es IHe]; intro n; cbn [ent_lines forallb xtab_check]; auto. rewrite IHe. destruct (te_use x); reflexivity.
Qed.
Lemma used_in l e : In e (used l) <-> exists n x, lists l n x /\ te_use x = true /\ n <> 0 /\ e = with_pos (Some (AInt (te_off x))) (ient0 n (te_gen x)).
Proof.
  assert (G : forall es n0, In e (flat_map xtab_entry (ent_lines n0 es)) <-> exists k x, nth_error es k = Some x /\ te_use x = true /\ n0 + Z.of_nat k <> 0 /\ e = with_pos (Some (AInt (te_off x))) (ient0 (n0 + Z.of_nat k) (te_gen x))).
  { induction es as [|y es IH]; intro n0; cbn [ent_lines flat_map].
    - split; [intros []|intros (k & x & N & _); destruct k; discriminate].
    - rewrite in_app_iff, IH. split.
      + intros [I|(k & x & N & Q)].
        * cbn [xtab_entry] in I. destruct (te_use y) eqn:U; cbn [beqb Z.eqb andb negb] in I; [|destruct I]. change (beqb [110] [102]) with false in I. cbn [negb andb] in I.
          destruct (n0 =? 0) eqn:Z0; cbn [negb] in I; [destruct I|]. destruct I as [<-|[]]. exists O, y. split; [reflexivity|]. split; auto. split; [lia|]. replace (n0 + Z.of_nat 0) with n0 by lia. reflexivity.
        * exists (S k), x. replace (n0 + Z.of_nat (S k)) with (n0 + 1 + Z.of_nat k) by lia. auto.
      + intros ([|k] & x & N & U & NZ & ->).
        * left. cbn in N. injection N as ->. cbn [xtab_entry]. rewrite U. change (beqb [110] [102]) with false. cbn [negb andb]. replace (n0 + Z.of_nat 0) with n0 in * by lia. replace (n0 =? 0) with false by lia. left. reflexivity.
        * right. exists k, x. replace (n0 + 1 + Z.of_nat k) with (n0 + Z.of_nat (S k)) by lia. auto. }
  unfold used, sub_lines, lists. induction l as [|[n0 es] l IH]; cbn [flat_map fst snd app].
  - split; [intros []|intros (n & x & (f & es & k & [] & _) & _)].
  - cbn [xtab_entry flat_map app]. rewrite flat_map_app, in_app_iff, G, IH. split.
    + intros [(k & x & N & U & NZ & ->)|(n & x & (f & es' & k & I & N & ->) & Q)].
      * exists (n0 + Z.of_nat k), x. split; [exists n0, es, k; split; [left; auto|auto]|auto].
      * exists (f + Z.of_nat k), x. split; [exists f, es', k; split; [right; auto|auto]|auto].
    + intros (n & x & (f & es' & k & [Q|I] & N & ->) & U & NZ & ->).
      * injection Q as <- <-. left. exists k, x. auto.
      * right. exists (f + Z.of_nat k), x. split; [exists f, es', k; auto|auto].
Qed.

(* ---------- a table in a file ---------- *)
Lemma gap_startxref d g post : gap g -> apart (PDict d) (g ++ B "startxref" ++ post).
Proof.
  intro G. split; [left; exact Logic.I|]. exists g, (B "startxref" ++ post). split; [reflexivity|]. split; auto. right. exists 115. eexists. split; [reflexivity|]. split; [left; unfold letter; lia|].
  intros [r Q]. discriminate.
Qed.

Section WithZlib.
Context {ZL : Zlib}.

Lemma spelled_dict_tok d v : spelled (PDict d) v -> tokk v TDict /\ v <> [].
Proof.
  intro SP. destruct (proj1 spelling _ _ SP) as (_ & _ & NE & _ & _ & _ & D & _). unfold direct in D. cbn [kind_of] in D. split; [apply D|auto].
Qed.

Lemma table_read l d txt : table_text l d txt -> exists k, (k < length txt)%nat /\ forall pre post, apart (PDict d) post ->
  let F := pre ++ txt ++ post in
  parse_xref_table F (length pre) = Ok (section_entry (Z.of_nat (length pre)) (Z.of_nat (length pre + k)) :: used l) /\
  (forall p len rest startx, read_at p (Z.of_nat (length pre)) len = Ok (F, length pre, rest) ->
     read_section p (Z.of_nat (length pre)) (Z.of_nat (length pre) + len) startx
     = Ok (section_entry (Z.of_nat (length pre)) (Z.of_nat (length pre + k)) :: used l, rvd d, F)) /\
  trailer_read F (length pre + k) = Ok (rvd d).
Proof.
  intros (e & t & s & c & w & v & -> & BR & SS & BS & C & W & SP). destruct (brk_eol e BR) as (BE & _). pose proof (sub_rows _ _ SS) as RW.
  change (B "xref") with W_xref. change (B "trailer") with W_trailer.
  exists (length (W_xref ++ e ++ t)). split. { rewrite !app_length. change (length W_trailer) with 7%nat. lia. }
  intros pre post AP F. destruct (spelled_dict_tok _ _ SP) as (TK & NV).
  set (P := pre ++ W_xref ++ e ++ t).
  assert (LP : length P = (length pre + length (W_xref ++ e ++ t))%nat) by (unfold P; rewrite app_length; reflexivity).
  assert (EF : F = P ++ W_trailer ++ s ++ [c] ++ w ++ v ++ post) by (unfold F, P; rewrite <- !app_assoc; reflexivity).
  assert (WS1 : Forall white s) by (eapply Forall_impl; [|exact BS]; unfold white; cbn; lia).
  assert (WC : white c) by (unfold white; lia).
  assert (S4 : sub F (length pre) (length pre + 4) = W_xref) by (unfold F; rewrite <- !app_assoc; apply sub_app_exact; reflexivity).
  assert (XL : xref_lines (S (length F)) F None (next_line F (length pre + 4)) = Ok (sub_lines l, length (P ++ W_trailer ++ s))).
  { pose proof (rows_read _ _ RW (pre ++ W_xref) e None (S (length F)) s c (w ++ v ++ post) BE (sub_numbered l None)) as R. cbn zeta in R.
    replace ((pre ++ W_xref) ++ e ++ t ++ W_trailer ++ s ++ c :: w ++ v ++ post) with F in R by (unfold F; rewrite <- !app_assoc; reflexivity).
    rewrite app_length in R. change (length W_xref) with 4%nat in R. rewrite R; auto.
    - f_equal. f_equal. unfold P. rewrite !app_length. lia.
    - pose proof (rows_count _ _ RW). rewrite EF. unfold P. rewrite !app_length. lia. }
  assert (T1 : next_token F (length P) = (length P, length (P ++ W_trailer), Some TKeyword)).
  { pose proof (next_token_white P [] W_trailer TKeyword (s ++ [c] ++ w ++ v ++ post)) as N. cbn [app] in N. rewrite EF. cbn [app]. rewrite N; auto.
    - rewrite app_nil_r, !app_length. reflexivity.
    - apply tokk_of_1; auto. intros rest h cur i SS1. apply (tok1_keyword 116 (tl W_trailer)); auto.
      + unfold letter; lia.
      + repeat constructor.
      + intros [r Q]. discriminate.
    - right. destruct s as [|y s']; [exists c; eexists; split; [reflexivity|apply is_sep_iff; left; auto]|]. inversion WS1; subst. exists y. eexists. split; [reflexivity|apply is_sep_iff; left; auto]. }
  assert (T2 : forall q w', q = P ++ W_trailer ++ w' -> (exists w2, s ++ [c] ++ w = w' ++ w2 /\ Forall white w2) ->
     next_token F (length q) = (length (P ++ W_trailer ++ s ++ [c] ++ w), length (P ++ W_trailer ++ s ++ [c] ++ w ++ v), Some TDict)).
  { intros q w' -> (w2 & EW & FW). pose proof (next_token_white (P ++ W_trailer ++ w') w2 v TDict post FW TK (or_introl eq_refl)) as N.
    assert (EQ : (P ++ W_trailer ++ w') ++ w2 = P ++ W_trailer ++ s ++ [c] ++ w) by (rewrite <- !app_assoc, <- EW; reflexivity).
    replace ((P ++ W_trailer ++ w') ++ w2 ++ v ++ post) with F in N.
    2:{ rewrite EF. transitivity (((P ++ W_trailer ++ w') ++ w2) ++ v ++ post); [rewrite EQ; rewrite <- !app_assoc; reflexivity|rewrite <- !app_assoc; reflexivity]. }
    rewrite N, EQ. f_equal. f_equal. rewrite !app_length. lia. }
  assert (TA : next_token F (length (P ++ W_trailer)) = (length (P ++ W_trailer ++ s ++ [c] ++ w), length (P ++ W_trailer ++ s ++ [c] ++ w ++ v), Some TDict)).
  { apply (T2 _ []); [rewrite app_nil_r; reflexivity|]. exists (s ++ [c] ++ w). split; [reflexivity|]. apply Forall_app. split; auto. constructor; auto. }
  assert (TB : next_token F (length (P ++ W_trailer ++ s)) = (length (P ++ W_trailer ++ s ++ [c] ++ w), length (P ++ W_trailer ++ s ++ [c] ++ w ++ v), Some TDict)).
  { apply (T2 _ s); [reflexivity|]. exists ([c] ++ w). split; [reflexivity|]. constructor; auto. }
  assert (PO : parse_obj F (length (P ++ W_trailer ++ s ++ [c] ++ w)) = Ok (PDict (rvd d))).
  { pose proof (spelled_rv _ _ SP ltac:(discriminate) (P ++ W_trailer ++ s ++ [c] ++ w) post AP) as R.
    replace ((P ++ W_trailer ++ s ++ [c] ++ w) ++ v ++ post) with F in R by (rewrite EF, <- !app_assoc; reflexivity). exact R. }
  assert (FT : find W_trailer F (length pre) = Some (length P)).
  { replace F with (pre ++ (W_xref ++ e ++ t) ++ W_trailer ++ s ++ [c] ++ w ++ v ++ post) by (unfold F; rewrite <- !app_assoc; reflexivity).
    change W_trailer with (116 :: tl W_trailer). rewrite find_absent; [f_equal; lia|]. intro I. apply in_app_or in I as [I|I]; [cbn in I; lia|].
    apply in_app_or in I as [I|I]; [|exact (rows_not_t _ _ RW I)]. rewrite Forall_forall in BE. apply BE in I. unfold eol in I. lia. }
  assert (PX : parse_xref_table F (length pre) = Ok (section_entry (Z.of_nat (length pre)) (Z.of_nat (length pre + length (W_xref ++ e ++ t))) :: used l)).
  { unfold parse_xref_table, parse_xref_table_raw. rewrite S4. change (beqb W_xref W_xref) with true. cbn [negb]. rewrite XL. cbn [bind]. rewrite TB, PO. cbn [bind xt_lines]. rewrite sub_checked, FT. cbn [znat]. rewrite LP. reflexivity. }
  split; [exact PX|]. split.
  - intros p len rest startx RA. unfold read_section. replace (Z.of_nat (length pre) + len - Z.of_nat (length pre)) with len by lia. rewrite RA. cbn [bind].
    rewrite S4. change (beqb W_xref W_xref) with true. rewrite PX. cbn [bind]. rewrite FT. cbn [znat]. replace (Z.of_nat (length P) <? 0) with false by lia. rewrite Nat2Z.id, T1, TA.
    replace (sub F _ _) with v.
    2:{ symmetry. replace F with ((P ++ W_trailer ++ s ++ [c] ++ w) ++ v ++ post) by (rewrite EF, <- !app_assoc; reflexivity). apply sub_app_exact; auto. rewrite !app_length. lia. }
    pose proof (spelled_rv _ _ SP ltac:(discriminate) [] []) as R. cbn [app length] in R. rewrite app_nil_r in R. rewrite R; [reflexivity|].
    split; [left; exact Logic.I|]. exists [], []. split; [reflexivity|]. split; [constructor|left; reflexivity].
  - rewrite <- LP. unfold trailer_read. rewrite T1. replace (sub F (length P) (length (P ++ W_trailer))) with W_trailer.
    2:{ symmetry. rewrite EF. apply sub_app_exact; auto. rewrite app_length. reflexivity. }
    change (beqb W_trailer W_trailer) with true. rewrite TA, PO. reflexivity.
Qed.
End WithZlib.
