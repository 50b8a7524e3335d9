(* Proofs about the emphasis marks of a markdown line *)
From Coq Require Import String ZifyBool ZifyNat.
From Verif Require Import PyBase Model_Objects Model_Filestruct Model_Markdown Spec_Markdown Facts_Base Facts_Revision Facts_Doc Facts_Markdown.

Lemma after_keep s i cur a q r : (S i < length s)%nat -> after_turn s (mk_ss i cur a q r) = mk_ss (S i) cur a q r.
Proof. intro L. unfold after_turn. cbn [ss_i ss_cur ss_accu ss_search ss_res]. replace (Nat.eqb (S i) (length s)) with false by (symmetry; apply Nat.eqb_neq; lia). reflexivity. Qed.
Lemma prev_char (pre rest : bytes) : (if Nat.ltb 0 (length pre) then nth (length pre - 1) (pre ++ rest) 0 else 32) = last pre 32.
Proof.
  destruct pre as [|x pre]; [reflexivity|]. destruct (exists_last (l := x :: pre) ltac:(discriminate)) as (a & y & ->). rewrite last_last, app_length. cbn [length].
  replace (0 <? length a + 1)%nat with true by (symmetry; apply Nat.ltb_lt; lia). replace (length a + 1 - 1)%nat with (length a) by lia. rewrite <- app_assoc. apply nth_at.
Qed.
Lemma star_not_code c (q : bytes) : c = 42 \/ c = 95 -> beqb (c :: q) [96] = false.
Proof. intros [-> | ->]; reflexivity. Qed.

Lemma style_marks c k : c = 42 \/ c = 95 -> forall fuel pre rest cur q res, rest <> [] ->
  style_loop (k + fuel) (pre ++ repeat c k ++ rest) (mk_ss (length pre) cur true (Some (c :: q)) res) =
  style_loop fuel (pre ++ repeat c k ++ rest) (mk_ss (length (pre ++ repeat c k)) cur true (Some (c :: q ++ repeat c k)) res).
Proof.
  intro HC. induction k as [|k IH]; intros fuel pre rest cur q res NR; [cbn [repeat app]; rewrite !app_nil_r; reflexivity|].
  cbn [repeat Nat.add]. set (s := pre ++ (c :: repeat c k) ++ rest). assert (LS : (S (length pre) < length s)%nat) by (unfold s; destruct rest; [congruence|]; rewrite !app_length; cbn [length]; lia).
  rewrite style_next by (cbn [ss_i]; lia).
  assert (T : style_turn s (mk_ss (length pre) cur true (Some (c :: q)) res) = mk_ss (length pre) cur true (Some (c :: q ++ [c])) res).
  { unfold style_turn, s. cbn [ss_i ss_search ss_accu ss_cur ss_res]. cbn [app]. rewrite nth_at, star_not_code by auto. replace (isstar c) with true by (unfold isstar; lia). reflexivity. }
  rewrite T, after_keep by auto. replace s with ((pre ++ [c]) ++ repeat c k ++ rest) by (unfold s; rewrite <- !app_assoc; reflexivity).
  replace (S (length pre)) with (length (pre ++ [c])) by (rewrite app_length; cbn [length]; lia). rewrite IH by auto. f_equal. rewrite <- !app_assoc. reflexivity.
Qed.
Lemma style_emph_inner c q t : c = 42 \/ c = 95 -> forall fuel pre rest cur res, Forall (fun x => x <> 42 /\ x <> 95) t -> rest <> [] ->
  style_loop (length t + fuel) (pre ++ t ++ rest) (mk_ss (length pre) cur false (Some (c :: q)) res) =
  style_loop fuel (pre ++ t ++ rest) (mk_ss (length (pre ++ t)) cur false (Some (c :: q)) res).
Proof.
  intro HC. induction t as [|x t IH]; intros fuel pre rest cur res F NR; [rewrite app_nil_r; reflexivity|]. inversion F as [|? ? (N1 & N2) F']; subst.
  cbn [length Nat.add]. set (s := pre ++ (x :: t) ++ rest). assert (LS : (S (length pre) < length s)%nat) by (unfold s; destruct rest; [congruence|]; rewrite !app_length; cbn [length]; lia).
  rewrite style_next by (cbn [ss_i]; lia).
  assert (T : style_turn s (mk_ss (length pre) cur false (Some (c :: q)) res) = mk_ss (length pre) cur false (Some (c :: q)) res).
  { unfold style_turn, s. cbn [ss_i ss_search ss_accu ss_cur ss_res]. cbn [app]. rewrite nth_at, star_not_code by auto. replace (isstar x) with false by (unfold isstar; lia). reflexivity. }
  rewrite T, after_keep by auto. replace s with ((pre ++ [x]) ++ t ++ rest) by (unfold s; rewrite <- !app_assoc; reflexivity).
  replace (S (length pre)) with (length (pre ++ [x])) by (rewrite app_length; cbn [length]; lia). rewrite IH by auto. f_equal. rewrite <- !app_assoc. reflexivity.
Qed.
Definition emph_source (n : nat) (c : Z) (t : bytes) : bytes := repeat c n ++ t ++ repeat c n.
Lemma style_emph n c t fuel pre rest cur res : (1 <= n <= 3)%nat -> c = 42 \/ c = 95 /\ last pre 32 = 32 -> t <> [] -> Forall (fun x => x <> 42 /\ x <> 95) t -> (cur <= length pre)%nat ->
  style_loop (n + (length t + S fuel)) (pre ++ emph_source n c t ++ rest) (mk_ss (length pre) cur false None res) =
  style_loop fuel (pre ++ emph_source n c t ++ rest) (after_turn (pre ++ emph_source n c t ++ rest)
    (mk_ss (length (pre ++ repeat c n ++ t) + 2) (length (pre ++ emph_source n c t)) false None (res ++ sub pre cur (length pre) ++ emphasis n t))).
Proof.
  intros HN HC NT F LC. destruct n as [|n]; [lia|]. set (s := pre ++ emph_source (S n) c t ++ rest). assert (HC2 : c = 42 \/ c = 95) by tauto.
  assert (LS : (length (pre ++ repeat c (S n) ++ t) < length s)%nat) by (unfold s, emph_source; rewrite !app_length; cbn [repeat length]; lia).
  assert (LT : (length pre + S n < length (pre ++ repeat c (S n) ++ t))%nat) by (rewrite !app_length, repeat_length; destruct t; [congruence|cbn [length]; lia]).
  cbn [Nat.add]. rewrite style_next by (cbn [ss_i]; lia).
  assert (T : style_turn s (mk_ss (length pre) cur false None res) = mk_ss (length pre) (length pre) true (Some [c]) (res ++ sub pre cur (length pre))).
  { unfold style_turn. cbn [ss_i ss_search ss_accu ss_cur ss_res]. unfold s. rewrite prev_char. unfold emph_source. cbn [repeat app]. rewrite nth_at, sub_app_same by lia.
    replace (c =? 96) with false by lia. destruct HC as [-> | (-> & ->)]; reflexivity. }
  rewrite T, after_keep by lia. clear T. set (r0 := res ++ sub pre cur (length pre)).
  assert (E1 : s = (pre ++ [c]) ++ repeat c n ++ (t ++ repeat c (S n) ++ rest)) by (unfold s, emph_source; cbn [repeat]; rewrite <- !app_assoc; reflexivity).
  replace (S (length pre)) with (length (pre ++ [c])) by (rewrite app_length; cbn [length]; lia).
  assert (M := style_marks c n HC2 (length t + S fuel) (pre ++ [c]) (t ++ repeat c (S n) ++ rest) (length pre) [] r0 ltac:(destruct t; [congruence|discriminate])). rewrite <- E1 in M. rewrite M. clear M. cbn [app].
  assert (EP : (pre ++ [c]) ++ repeat c n = pre ++ repeat c (S n)) by (cbn [repeat]; rewrite <- app_assoc; reflexivity). rewrite EP.
  assert (E2 : s = (pre ++ repeat c (S n)) ++ t ++ (repeat c (S n) ++ rest)) by (rewrite <- EP, E1, <- !app_assoc; reflexivity).
  change (c :: repeat c n) with (repeat c (S n)). set (M := repeat c (S n)) in *. set (P := pre ++ M) in *.
  assert (LP : length P = (length pre + S n)%nat) by (unfold P, M; rewrite app_length, repeat_length; reflexivity).
  assert (LPT : length (P ++ t) = length (pre ++ M ++ t)) by (unfold P; now rewrite app_assoc).
  (* the first character of the text ends the marks *)
  destruct t as [|x t]; [congruence|]. inversion F as [|? ? (N1 & N2) F']; subst. cbn [length Nat.add].
  rewrite style_next by (cbn [ss_i]; rewrite LP; lia).
  assert (T : style_turn s (mk_ss (length P) (length pre) true (Some M) r0) = mk_ss (length P) (length pre) false (Some M) r0).
  { unfold style_turn. cbn [ss_i ss_search ss_accu ss_cur ss_res]. rewrite E2. cbn [app]. rewrite nth_at. unfold M. cbn [repeat]. rewrite star_not_code by auto. replace (isstar x) with false by (unfold isstar; lia). reflexivity. }
  rewrite T, after_keep by lia. clear T.
  assert (E3 : s = (P ++ [x]) ++ t ++ (M ++ rest)) by (rewrite E2, <- !app_assoc; reflexivity). replace (S (length P)) with (length (P ++ [x])) by (rewrite app_length; cbn [length]; lia).
  assert (I := style_emph_inner c (repeat c n) t HC2 (S fuel) (P ++ [x]) (M ++ rest) (length pre) r0 F' ltac:(discriminate)). rewrite <- E3 in I. change (c :: repeat c n) with M in I. rewrite I. clear I.
  replace ((P ++ [x]) ++ t) with (P ++ x :: t) by (rewrite <- app_assoc; reflexivity). rewrite LPT. rewrite style_next by (cbn [ss_i]; lia). f_equal. f_equal.
  unfold style_turn. cbn [ss_i ss_search ss_accu ss_cur ss_res].
  assert (EN : nth (length (pre ++ M ++ x :: t)) s 0 = c). { replace s with ((pre ++ M ++ x :: t) ++ c :: repeat c n ++ rest); [apply nth_at|]. rewrite E2. unfold P, M. cbn [repeat]. rewrite <- !app_assoc. reflexivity. }
  rewrite EN. unfold M at 1. cbn [repeat]. rewrite star_not_code by auto. replace (isstar c) with true by (unfold isstar; lia).
  assert (LM : length M = S n) by (unfold M; apply repeat_length). rewrite LM. f_equal.
  - unfold emph_source. fold M. rewrite !app_length. lia.
  - unfold r0. rewrite <- app_assoc. do 3 f_equal. rewrite <- LP, <- LPT, E2. apply sub_mid.
Qed.

Definition line_source (l : list inline) : bytes := flat_map inline_source l.
Definition line_shown (l : list inline) : bytes := flat_map inline_html l.
Lemma line_empty l : forall prev, inline_ok prev l -> line_source l = [] -> line_shown l = [].
Proof.
  induction l as [|[t|t|n c t] l IH]; intros prev OK E; [auto| | |].
  - cbn in E, OK |- *. apply app_eq_nil in E as [-> E]. destruct OK as (_ & OK). exact (IH _ OK E).
  - discriminate.
  - cbn in E, OK. destruct OK as ((L & _) & _). destruct n; [lia|discriminate].
Qed.
Lemma last_app_ne (a b : bytes) d : b <> [] -> last (a ++ b) d = last b d.
Proof. intro N. destruct (exists_last N) as (m & x & ->). rewrite app_assoc, !last_last. reflexivity. Qed.
Lemma last_app_default (a b : bytes) d : last (a ++ b) d = last b (last a d).
Proof. destruct b as [|x b]; [rewrite app_nil_r; reflexivity|]. rewrite last_app_ne by discriminate. destruct (exists_last (l := x :: b) ltac:(discriminate)) as (m & y & ->). rewrite !last_last. reflexivity. Qed.
Lemma sub_nil (s : bytes) k : sub s k k = [].
Proof. unfold sub. rewrite Nat.sub_diag. reflexivity. Qed.
Lemma style_line m : forall l, (length l <= m)%nat -> forall fuel pre cur res, inline_ok (last pre 32) l -> (cur <= length pre)%nat -> (length (line_source l) <= fuel)%nat ->
  (line_source l = [] -> cur = length pre) ->
  style_loop fuel (pre ++ line_source l) (mk_ss (length pre) cur false None res) = res ++ sub pre cur (length pre) ++ line_shown l.
Proof.
  induction m as [|m IH]; intros [|p l] LL fuel pre cur res OK LC F E0; cbn [length] in LL; try lia.
  1,2: cbn [line_source line_shown flat_map]; rewrite app_nil_r, style_stop by (cbn; lia); cbn [ss_res]; rewrite (E0 eq_refl), sub_nil, !app_nil_r; reflexivity.
  change (line_source (p :: l)) with (inline_source p ++ line_source l) in *. change (line_shown (p :: l)) with (inline_html p ++ line_shown l). rewrite app_length in F.
  destruct p as [t|t|n c t]; cbn [inline_source inline_ok] in *.
  - cbn [inline_html]. destruct OK as (O1 & O2). destruct (line_source l) as [|x y] eqn:EL.
    + rewrite app_nil_r in *. rewrite (line_empty l _ O2 EL), app_nil_r. destruct t as [|c t'].
      * rewrite app_nil_r, style_stop by (cbn; lia). cbn [ss_res]. rewrite (E0 eq_refl), sub_nil, !app_nil_r. reflexivity.
      * rewrite style_last_words by (try discriminate; try assumption; lia). rewrite sub_extend by auto. rewrite sub_app_same by auto. reflexivity.
    + replace fuel with (length t + (fuel - length t))%nat by lia. rewrite style_words by (auto; discriminate). rewrite app_assoc, <- EL, IH.
      * f_equal. rewrite sub_extend by auto. rewrite sub_app_same by auto. rewrite <- app_assoc. reflexivity.
      * lia.
      * rewrite last_app_default. exact O2.
      * rewrite app_length. lia.
      * rewrite EL. lia.
      * rewrite EL. discriminate.
  - cbn [inline_html]. destruct OK as (O1 & O2). change (B "`") with [96] in *. change (B "<code>") with T_code. change (B "</code>") with T_endcode. rewrite !app_length in F. cbn [length] in F.
    replace fuel with (length t + S (S (fuel - length t - 2)))%nat by lia. rewrite style_code by auto. rewrite app_assoc, IH; auto; try lia.
    + rewrite sub_app_same with (a := pre ++ [96] ++ t ++ [96]) by (rewrite app_length; lia). rewrite sub_app_same by auto. rewrite sub_nil.
      cbn [app]. rewrite <- !app_assoc. reflexivity.
    + rewrite !app_assoc, last_last. exact O2.
  - destruct OK as (HN & HC & NT & FT & NX & O2). fold (emph_source n c t) in *. set (E := emph_source n c t) in *.
    assert (LE : length E = (n + length t + n)%nat) by (unfold E, emph_source; rewrite !app_length, repeat_length; lia).
    replace fuel with (n + (length t + S (fuel - n - length t - 1)))%nat by lia.
    assert (HC' : c = 42 \/ c = 95 /\ last pre 32 = 32) by tauto.
    unfold E. rewrite style_emph by auto. fold E. set (f2 := (fuel - n - length t - 1)%nat). set (k := length (pre ++ repeat c n ++ t)).
    assert (LK : (k + n = length (pre ++ E))%nat) by (unfold k, E, emph_source; rewrite !app_length, repeat_length; lia).
    set (r1 := res ++ sub pre cur (length pre) ++ emphasis n t).
    assert (EH : inline_html (IEmph n c t) = emphasis n t).
    { destruct n as [|[|[|[|]]]]; try lia; reflexivity. }
    rewrite EH. clear EH.
    assert (LASTE : last (pre ++ E) 32 = c). { unfold E, emph_source. rewrite last_app_ne by (destruct n; [lia|discriminate]). rewrite !app_assoc, last_app_ne by (destruct n; [lia|discriminate]). destruct n as [|[|[|[|]]]]; try lia; reflexivity. }
    destruct (line_source l) as [|x y] eqn:EL.
    + rewrite app_nil_r. rewrite (line_empty l _ O2 EL), app_nil_r. unfold after_turn. cbn [ss_i ss_cur ss_accu ss_search ss_res]. rewrite style_stop by (cbn [ss_i]; lia). cbn [ss_res].
      destruct (Nat.eqb (S (k + 2)) (length (pre ++ E))) eqn:EQ; [|reflexivity]. apply Nat.eqb_eq in EQ. rewrite EQ, sub_nil, app_nil_r. reflexivity.
    + rewrite app_assoc in *. rewrite <- EL in *.
      assert (W : (n = 3%nat) \/ (n < 3)%nat /\ exists w r', l = IWords w :: r' /\ (3 - n <= length w)%nat).
      { destruct NX as [N3|[N|X]]; [now left|subst l; discriminate|]. destruct (le_lt_dec 3 n); [left; lia|right; split; auto]. }
      destruct W as [-> |(N3 & w & r' & -> & LW)].
      * assert (EK : S (k + 2) = length (pre ++ E)) by lia. unfold after_turn. cbn [ss_i ss_cur ss_accu ss_search ss_res]. rewrite EK.
        replace (Nat.eqb (length (pre ++ E)) (length ((pre ++ E) ++ line_source l))) with false by (symmetry; apply Nat.eqb_neq; rewrite (app_length (pre ++ E)), EL; cbn [length]; lia).
        rewrite IH; auto; try lia.
        -- rewrite sub_nil. unfold r1. cbn [app]. rewrite <- !app_assoc. reflexivity.
        -- rewrite LASTE. exact O2.
      * cbn [inline_ok] in O2. destruct O2 as (FW & O3). change (line_source (IWords w :: r')) with (w ++ line_source r') in *. change (line_shown (IWords w :: r')) with (w ++ line_shown r').
        set (a := firstn (3 - n) w). set (b := skipn (3 - n) w). assert (EW : w = a ++ b) by (symmetry; apply firstn_skipn). assert (LA : length a = (3 - n)%nat) by (unfold a; apply firstn_length_le; exact LW).
        assert (NA : a <> []) by (intro Q; rewrite Q in LA; cbn [length] in LA; lia).
        set (pre2 := (pre ++ E) ++ a). assert (EK : S (k + 2) = length pre2) by (unfold pre2; rewrite app_length; lia).
        assert (ES : (pre ++ E) ++ w ++ line_source r' = pre2 ++ line_source (IWords b :: r')) by (unfold pre2; rewrite EW; change (line_source (IWords b :: r')) with (b ++ line_source r'); rewrite <- !app_assoc; reflexivity).
        rewrite ES. unfold after_turn. cbn [ss_i ss_cur ss_accu ss_search ss_res]. rewrite EK. rewrite app_length, EW, app_length in F.
        assert (O4 : inline_ok (last pre2 32) (IWords b :: r')).
        { cbn [inline_ok]. rewrite EW in FW, O3. apply Forall_app in FW as [_ FB]. split; [exact FB|]. unfold pre2. rewrite (last_app_default (pre ++ E) a), LASTE, <- last_app_default. exact O3. }
        assert (ESH : line_shown (IWords b :: r') = b ++ line_shown r') by reflexivity.
        assert (SA : sub pre2 (length (pre ++ E)) (length pre2) = a) by (unfold pre2; rewrite sub_extend by lia; rewrite sub_nil; reflexivity).
        destruct (line_source (IWords b :: r')) as [|x2 y2] eqn:EL2.
        -- rewrite app_nil_r, Nat.eqb_refl, style_stop by (cbn [ss_i]; lia). cbn [ss_res]. change (line_source (IWords b :: r')) with (b ++ line_source r') in EL2. apply app_eq_nil in EL2 as [EB ER].
           rewrite SA, (line_empty r' _ O3 ER), EW, EB, !app_nil_r. unfold r1. rewrite <- !app_assoc. reflexivity.
        -- replace (Nat.eqb (length pre2) (length (pre2 ++ x2 :: y2))) with false by (symmetry; apply Nat.eqb_neq; rewrite app_length; cbn [length]; lia).
           rewrite <- EL2. rewrite IH; auto.
           ++ rewrite SA, ESH, EW. unfold r1. rewrite <- !app_assoc. reflexivity.
           ++ cbn [length] in LL |- *. lia.
           ++ unfold pre2. rewrite (app_length (pre ++ E)). lia.
           ++ change (line_source (IWords b :: r')) with (b ++ line_source r'). rewrite app_length. unfold f2. lia.
           ++ rewrite EL2. discriminate.
Qed.
Theorem inline_in_place l : inline_ok 32 l -> style (flat_map inline_source l) = flat_map inline_html l.
Proof. intro OK. unfold style. exact (eq_trans (style_line (length l) l (le_n _) _ [] 0 [] OK (le_n _) (le_S _ _ (le_n _)) (fun _ => eq_refl)) eq_refl). Qed.
