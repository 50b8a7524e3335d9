(* Layout of the text of a page *)
From Coq Require Import QArith Qround Qcanon Sorted Permutation Lqa.
From Verif Require Import PyBase Model_Graphics Model_Layout Spec_Layout Facts_Base.
Open Scope Z_scope.

Lemma q_leb_le x y : q_leb x y = true <-> (x <= y)%Qc.
Proof. apply Qle_bool_iff. Qed.
Lemma q_ltb_lt x y : q_ltb x y = true <-> (x < y)%Qc.
Proof.
  unfold q_ltb. destruct (q_leb y x) eqn:E; cbn.
  - apply q_leb_le in E. split; [discriminate|]. intro C. exfalso. exact (Qcle_not_lt _ _ E C).
  - split; auto. intros _. apply Qcnot_le_lt. intro C. apply q_leb_le in C. congruence.
Qed.
Lemma q_ltb_ge x y : q_ltb x y = false <-> (y <= x)%Qc.
Proof. unfold q_ltb. rewrite negb_false_iff. apply q_leb_le. Qed.
Lemma q_eqb_eq x y : q_eqb x y = true <-> x = y.
Proof. unfold q_eqb. destruct (Qc_eq_dec x y); split; auto; congruence. Qed.
Lemma q_eqb_refl x : q_eqb x x = true.
Proof. now apply q_eqb_eq. Qed.
Lemma q_eqb_neq x y : q_eqb x y = false <-> x <> y.
Proof. unfold q_eqb. destruct (Qc_eq_dec x y); split; auto; congruence. Qed.

(* ---------- sorting ---------- *)
Lemma sort_ins_perm {A} (k : A -> Qc) x l : Permutation (x :: l) (sort_ins k x l).
Proof. induction l as [|y l IH]; cbn [sort_ins]; auto. destruct (q_leb _ _); auto. rewrite perm_swap. now constructor. Qed.
Lemma sort_by_perm {A} (k : A -> Qc) l : Permutation l (sort_by k l).
Proof. induction l as [|y l IH]; cbn [sort_by]; auto. rewrite <- sort_ins_perm. now constructor. Qed.
Lemma sort_by_sorted {A} (k : A -> Qc) l : StronglySorted (fun a b => k a <= k b)%Qc (sort_by k l).
Proof.
  assert (I : forall x m, StronglySorted (fun a b => k a <= k b)%Qc m -> StronglySorted (fun a b => k a <= k b)%Qc (sort_ins k x m)).
  { intros x m H. induction H as [|y m H IH F]; cbn [sort_ins]; [constructor; constructor|]. destruct (q_leb (k x) (k y)) eqn:E.
    - apply q_leb_le in E. constructor; [constructor; auto|]. constructor; auto. eapply Forall_impl; [|exact F]. intros b Hb. cbn in *. eapply Qcle_trans; eauto.
    - constructor; auto. assert (L : (k y <= k x)%Qc). { apply Qclt_le_weak. apply Qcnot_le_lt. intro C. apply q_leb_le in C. congruence. }
      eapply Permutation_Forall; [apply sort_ins_perm|]. constructor; auto. }
  induction l as [|y l IH]; cbn [sort_by]; [constructor|]. now apply I.
Qed.

(* ---------- lines ---------- *)
Definition near (sp : Qc) (b a : tblock) : Prop := (tb_y b - tb_y a <= sp * (qc 9 / qc 10))%Qc.
Lemma sub_nonneg a b : (b <= a)%Qc -> (0 <= a - b)%Qc.
Proof. intro H. now apply Qcle_minus_iff in H. Qed.
Lemma q_abs_nonneg x : (0 <= x)%Qc -> q_abs x = x.
Proof. intro H. unfold q_abs. destruct (q_ltb x (qc 0)) eqn:E; auto. apply q_ltb_lt in E. exfalso. exact (Qcle_not_lt _ _ H E). Qed.
Lemma pop_line_split y lim l : forall a c, pop_line y lim l = (a, c) -> Forall (fun b => tb_y b <= y)%Qc l ->
  l = a ++ c /\ Forall (fun b => y - tb_y b <= lim)%Qc a /\ match c with [] => True | b :: _ => (lim < y - tb_y b)%Qc end.
Proof.
  induction l as [|b l IH]; intros a c E F; cbn [pop_line] in E; [inversion E; auto|]. inversion F as [|? ? F1 F2]; subst.
  rewrite (q_abs_nonneg _ (sub_nonneg _ _ F1)) in E. destruct (q_ltb lim (y - tb_y b)%Qc) eqn:EL.
  - inversion E; subst. apply q_ltb_lt in EL. auto.
  - apply q_ltb_ge in EL. destruct (pop_line y lim l) as [a' c'] eqn:E'. inversion E; subst. destruct (IH a' c eq_refl F2) as (-> & H1 & H2). split; [reflexivity|]. split; [constructor|]; auto.
Qed.

(* text of the rows, from the previous ordinate on *)
Fixpoint joined (sp prev : Qc) (groups : list (list tblock)) (strs : list bytes) : bytes :=
  match groups, strs with
  | (b :: _) :: gs, s :: ss =>
      match inter_lines prev (tb_y b) sp with Ok k => repeat 10 (Z.to_nat k) | _ => [] end
      ++ printed s ++ joined sp (tb_y b) gs ss
  | _, _ => []
  end.
Inductive grouped (sp : Qc) : list (list tblock) -> Prop :=
| gr_nil : grouped sp []
| gr_cons b g gs : Forall (near sp b) g -> grouped sp gs ->
    (match concat gs with [] => True | c :: _ => (sp * (qc 9 / qc 10) < tb_y b - tb_y c)%Qc end) -> grouped sp ((b :: g) :: gs).
Definition desc (a b : tblock) : Prop := (tb_y b <= tb_y a)%Qc.
Lemma sorted_app_r {A} (R : A -> A -> Prop) a b : StronglySorted R (a ++ b) -> StronglySorted R b.
Proof. induction a as [|x a IH]; cbn; auto. intro H. inversion H; auto. Qed.
Lemma sorted_pair {A} (R : A -> A -> Prop) a b x y : StronglySorted R (a ++ b) -> In x a -> In y b -> R x y.
Proof.
  induction a as [|z a IH]; cbn [app]; intros SS I J; [destruct I|]. inversion SS as [|? ? SS' F]; subst. destruct I as [->|I]; auto. rewrite Forall_forall in F. apply F. apply in_or_app. auto.
Qed.
Lemma loop_ok f mx cw sp : forall l prev out r, StronglySorted desc l -> layout_loop f mx cw sp prev l out = Ok r ->
  exists groups strs, concat groups = l /\ grouped sp groups /\ Forall2 (fun g s => line_string mx cw g = Ok s) groups strs /\
    r = out ++ joined sp prev groups strs.
Proof.
  induction f as [|f IH]; intros l prev out r SS E.
  - destruct l; [|discriminate]. cbn in E. inversion E; subst. exists [], []. cbn. rewrite app_nil_r. repeat split; constructor.
  - destruct l as [|b l]; [cbn in E; inversion E; subst; exists [], []; cbn; rewrite app_nil_r; repeat split; constructor|].
    inversion SS as [|? ? SS' F]; subst. cbn [layout_loop] in E.
    destruct (inter_lines prev (tb_y b) sp) as [k| |] eqn:EK; try discriminate. cbn [bind] in E.
    destruct (pop_line (tb_y b) (sp * (qc 9 / qc 10))%Qc l) as [a c] eqn:EP. destruct (pop_line_split _ _ _ _ _ EP F) as (-> & N1 & N2).
    destruct (line_string mx cw (b :: a)) as [s| |] eqn:ES; try discriminate. cbn [bind] in E.
    destruct (IH c (tb_y b) _ r (sorted_app_r _ _ _ SS') E) as (gs & ss & EC & G & F2 & ER).
    exists ((b :: a) :: gs), (s :: ss). split; [cbn [concat]; rewrite EC; reflexivity|]. split; [constructor; auto; rewrite EC; exact N2|]. split; [constructor; auto|].
    rewrite ER. cbn [joined]. rewrite EK. unfold printed. destruct (beqb s [32]); rewrite <- ?app_assoc; reflexivity.
Qed.
Lemma loop_total mx cw sp : cw <> qc 0 -> sp <> qc 0 -> forall f l prev out, (length l <= f)%nat -> exists r, layout_loop f mx cw sp prev l out = Ok r.
Proof.
  intros NC NS. assert (EC : forall x, exists n, column mx cw x = Ok n). { intro x. unfold column. destruct (q_eqb cw (qc 0)) eqn:E; [apply q_eqb_eq in E; congruence|eauto]. }
  assert (ER : forall l p s, exists r, line_rest mx cw p s l = Ok r).
  { induction l as [|b l IH]; intros p s; cbn [line_rest]; [eauto|]. destruct (q_ltb _ _); [|apply IH]. destruct (EC (tb_x b)) as (n & ->). cbn [bind]. apply IH. }
  assert (EI : forall p y, exists k, inter_lines p y sp = Ok k). { intros p y. unfold inter_lines. destruct (q_eqb p _); [eauto|]. destruct (q_eqb sp (qc 0)) eqn:E; [apply q_eqb_eq in E; congruence|eauto]. }
  induction f as [|f IH]; intros l prev out L; destruct l as [|b l]; try (cbn in L; lia); [cbn; eauto|cbn; eauto|]. cbn [layout_loop]. destruct (EI prev (tb_y b)) as (k & ->). cbn [bind].
  destruct (pop_line _ _ l) as [a c] eqn:EP.
  assert (LC : (length c <= length l)%nat). { clear -EP. revert a c EP. induction l as [|x l IH]; intros a c EP; cbn [pop_line] in EP; [inversion EP; auto|]. destruct (q_ltb _ _); [inversion EP; auto|]. destruct (pop_line _ _ l) as [a' c'] eqn:E'. inversion EP; subst. specialize (IH _ _ eq_refl). cbn. lia. }
  assert (exists s, line_string mx cw (b :: a) = Ok s) as (s & ->).
  { unfold line_string. destruct (sort_by tb_x (b :: a)) as [|x m] eqn:E. { assert (P := sort_by_perm tb_x (b :: a)). rewrite E in P. apply Permutation_sym, Permutation_nil in P. discriminate. } destruct (EC (tb_x x)) as (n & ->). cbn [bind]. apply ER. }
  cbn [bind]. apply IH. cbn in L. lia.
Qed.

(* ---------- rows ---------- *)
Lemma row_rest mx cw r : forall l p s s', row mx cw (l ++ [p]) s -> line_rest mx cw p s r = Ok s' -> row mx cw (l ++ p :: r) s'.
Proof.
  induction r as [|b r IH]; intros l p s s' R E; cbn [line_rest] in E; [inversion E; subst; auto|].
  replace (l ++ p :: b :: r) with ((l ++ [p]) ++ b :: r) by (rewrite <- app_assoc; reflexivity).
  destruct (q_ltb (tb_x p + tb_w p + MIN_SEP_DISTANCE)%Qc (tb_x b)) eqn:EG.
  - unfold column in E. destruct (q_eqb cw (qc 0)); try discriminate. cbn [bind] in E. refine (IH (l ++ [p]) b _ s' _ E).
    rewrite <- !app_assoc. cbn [app]. apply q_ltb_lt in EG. apply row_gap; auto.
  - cbn [bind] in E. refine (IH (l ++ [p]) b _ s' _ E). rewrite <- app_assoc. cbn [app]. apply row_near; auto. intro C. apply q_ltb_lt in C. unfold MIN_SEP_DISTANCE in EG. congruence.
Qed.
Lemma row_of mx cw g s : line_string mx cw g = Ok s -> row mx cw (sort_by tb_x g) s.
Proof.
  unfold line_string. destruct (sort_by tb_x g) as [|b r]; [discriminate|]. unfold column. destruct (q_eqb cw (qc 0)); [discriminate|]. cbn [bind]. intro E.
  refine (row_rest mx cw r [] b _ s _ E). apply row_one.
Qed.
Lemma ink_app a b : ink (a ++ b) = ink a ++ ink b.
Proof. apply filter_app. Qed.
Lemma ink_spaces n : ink (spaces n) = [].
Proof. unfold spaces. induction (Z.to_nat n); cbn; auto. Qed.
Lemma ink_newlines n : ink (repeat 10 n) = [].
Proof. induction n; cbn; auto. Qed.
Lemma row_ink mx cw l s : row mx cw l s -> ink s = ink (flat_map tb_text l).
Proof.
  induction 1 as [b|l p b s _ IH _|l p b s _ IH _].
  - cbn [flat_map]. rewrite app_nil_r, ink_app, ink_spaces. reflexivity.
  - replace (l ++ [p; b]) with ((l ++ [p]) ++ [b]) by (rewrite <- app_assoc; reflexivity). rewrite flat_map_app, !ink_app, ink_spaces, IH. cbn [flat_map]. now rewrite app_nil_r.
  - replace (l ++ [p; b]) with ((l ++ [p]) ++ [b]) by (rewrite <- app_assoc; reflexivity). rewrite flat_map_app, !ink_app, IH. cbn [flat_map]. now rewrite app_nil_r.
Qed.
Lemma printed_ink s : ink (printed s) = ink s.
Proof.
  unfold printed. destruct (beqb s [32]) eqn:E; [apply beqb_eq in E; subst; reflexivity|]. rewrite ink_app. cbn. now rewrite app_nil_r.
Qed.
Lemma joined_ink mx cw sp groups strs : Forall2 (fun g s => line_string mx cw g = Ok s) groups strs -> forall prev,
  ink (joined sp prev groups strs) = ink (flat_map tb_text (concat (map (sort_by tb_x) groups))).
Proof.
  induction 1 as [|g s gs ss E _ IH]; intro prev; [reflexivity|]. assert (R := row_ink _ _ _ _ (row_of _ _ _ _ E)). destruct g as [|b g]; [discriminate E|].
  cbn [joined map concat]. rewrite flat_map_app, !ink_app, IH, printed_ink, R. destruct (inter_lines prev (tb_y b) sp); rewrite ?ink_newlines; reflexivity.
Qed.

(* ---------- the blocks in lines ---------- *)
Lemma top_sort b g : Forall (desc b) g -> top (sort_by tb_x (b :: g)) (tb_y b).
Proof.
  intro F. assert (P := sort_by_perm tb_x (b :: g)). split.
  - exists b. split; auto. eapply Permutation_in; [exact P|left; auto].
  - eapply Permutation_Forall; [exact P|]. constructor; [apply Qcle_refl|]. exact F.
Qed.
Lemma top_unique l y y' : top l y -> top l y' -> y = y'.
Proof.
  intros ((b & Ib & <-) & F) ((c & Ic & <-) & F'). rewrite Forall_forall in F, F'. apply Qcle_antisym; auto.
Qed.
Lemma concat_perm groups : Permutation (concat groups) (concat (map (sort_by tb_x) groups)).
Proof. induction groups as [|g gs IH]; cbn [concat map]; auto. apply Permutation_app; auto. apply sort_by_perm. Qed.
Lemma in_lines_of sp l groups : StronglySorted desc l -> concat groups = l -> grouped sp groups -> in_lines sp l (map (sort_by tb_x) groups).
Proof.
  intros SS E G. split; [rewrite <- E; apply concat_perm|]. split; [apply Forall_map, Forall_forall; intros g _; apply (sort_by_sorted tb_x)|].
  revert l SS E. induction G as [|b g gs N G IH NX]; intros l SS E; [repeat split; constructor|].
  cbn [concat] in E. subst l. assert (SSr := sorted_app_r _ (b :: g) _ SS). destruct (IH _ SSr eq_refl) as (T & C & S2).
  cbn [app] in SS. inversion SS as [|? ? SS1 F]; subst. apply Forall_app in F as (Fg & Fr).
  assert (TB := top_sort b g Fg). cbn [map]. split; [constructor; eauto|]. split; [constructor; auto|].
  - intros y a Ty Ia. rewrite (top_unique _ _ _ Ty TB). assert (I : In a (b :: g)) by (eapply Permutation_in; [symmetry; apply sort_by_perm|exact Ia]).
    destruct I as [<-|I]; [|left; rewrite Forall_forall in N; now apply N].
    destruct g as [|c g]; [right; reflexivity|]. left. inversion N as [|? ? N1 _]; subst. inversion Fg as [|? ? D1 _]; subst.
    eapply Qcle_trans; [|exact N1]. replace (tb_y b - tb_y b)%Qc with 0%Qc by ring. now apply sub_nonneg.
  - constructor; auto. apply Forall_forall. intros line IL y a Ty Ia. apply in_map_iff in IL as (g' & <- & Ig').
    rewrite (top_unique _ _ _ Ty TB). assert (I : In a (concat gs)). { apply in_concat. exists g'. split; auto. eapply Permutation_in; [symmetry; apply sort_by_perm|exact Ia]. }
    split.
    + destruct (concat gs) as [|c r] eqn:EC; [destruct I|]. eapply Qclt_le_trans; [exact NX|]. apply Qcplus_le_compat; [apply Qcle_refl|]. apply Qcopp_le_compat.
      destruct I as [<-|I]; [apply Qcle_refl|]. inversion SSr as [|? ? _ Fc]; subst. rewrite Forall_forall in Fc. now apply Fc.
    + intros a' Ia'. assert (I2 : In a' (b :: g)) by (eapply Permutation_in; [symmetry; apply sort_by_perm|exact Ia']).
      apply (sorted_pair desc (b :: g) (concat gs)); auto.
Qed.
Lemma page_of sp gs : sp <> qc 0 -> forall b g s ss, StronglySorted desc (concat ((b :: g) :: gs)) -> Forall (fun x => tb_y x <> qc (-1)) (concat ((b :: g) :: gs)) ->
  Forall (fun g => g <> []) gs -> length ss = length gs ->
  page sp (map (sort_by tb_x) ((b :: g) :: gs)) (s :: ss) (printed s ++ joined sp (tb_y b) gs ss).
Proof.
  intro NS. induction gs as [|g' gs IH]; intros b g s ss SS NY NE L.
  - destruct ss; [|discriminate]. cbn [joined map]. rewrite app_nil_r. apply page_one.
  - destruct ss as [|s' ss]; [discriminate|]. inversion NE as [|? ? N1 N2]; subst. destruct g' as [|b' g']; [congruence|].
    cbn [concat] in SS, NY. assert (SS2 := sorted_app_r _ (b :: g) _ SS). assert (NY2 := NY). apply Forall_app in NY2 as (_ & NY2). cbn [joined map].
    unfold inter_lines. inversion NY as [|? ? Nb _]; subst. apply q_eqb_neq in Nb. rewrite Nb. apply q_eqb_neq in NS as NS'. rewrite NS'.
    apply page_more with (y := tb_y b) (y' := tb_y b').
    + apply top_sort. cbn [app] in SS. inversion SS as [|? ? _ F]; subst. now apply Forall_app in F.
    + apply top_sort. cbn [app] in SS2. inversion SS2 as [|? ? _ F]; subst. now apply Forall_app in F.
    + apply IH; auto.
Qed.

(* ---------- the most frequent size ---------- *)
Fixpoint q_get (k : Qc) (d : list (Qc * Z)) : Z :=
  match d with [] => 0 | (j, n) :: r => if q_eqb k j then n else q_get k r end.
Lemma q_get_add k n d j : q_get j (q_add k n d) = (if q_eqb j k then n else 0) + q_get j d.
Proof.
  induction d as [|[i m] d IH]; cbn [q_add q_get]; [destruct (q_eqb j k); lia|]. destruct (q_eqb k i) eqn:E; cbn [q_get].
  - apply q_eqb_eq in E. subst i. destruct (q_eqb j k); lia.
  - destruct (q_eqb j i) eqn:E2; [|exact IH]. apply q_eqb_eq in E2. subst i. destruct (q_eqb j k) eqn:E3; [|lia]. apply q_eqb_eq in E3. subst k. rewrite q_eqb_refl in E. discriminate.
Qed.
Lemma size_get l s : forall d, q_get s (size_distrib d l) = Z.of_nat (chars l s) + q_get s d.
Proof.
  induction l as [|b l IH]; intro d; [reflexivity|]. cbn [size_distrib]. rewrite IH, q_get_add. unfold chars. cbn [map list_sum fold_right].
  fold (list_sum (map (fun b => if Qc_eq_dec (tb_s b) s then length (tb_text b) else 0%nat) l)). unfold q_eqb. destruct (Qc_eq_dec s (tb_s b)), (Qc_eq_dec (tb_s b) s); try congruence; lia.
Qed.
Lemma most_from d : forall best occ, NoDup (map fst d) -> let r := most_frequent_from best occ d in
  (r = best /\ Forall (fun kn => snd kn <= occ) d) \/ (exists n, In (r, n) d /\ occ < n /\ Forall (fun kn => snd kn <= n) d).
Proof.
  induction d as [|[s n] d IH]; intros best occ ND; cbn [most_frequent_from]; [left; auto|]. inversion ND; subst. destruct (Z.ltb_spec occ n) as [L|L].
  - right. destruct (IH s n H2) as [(-> & F)|(m & I & L2 & F)].
    + exists n. split; [left; auto|]. split; auto. constructor; cbn; auto. lia.
    + exists m. split; [right; auto|]. split; [lia|]. constructor; cbn; auto. lia.
  - destruct (IH best occ H2) as [(-> & F)|(m & I & L2 & F)].
    + left. split; auto.
    + right. exists m. split; [right; auto|]. split; auto. constructor; cbn; auto. lia.
Qed.
Lemma q_add_keys k n d : map fst (q_add k n d) = map fst d \/ (map fst (q_add k n d) = map fst d ++ [k] /\ ~ In k (map fst d)).
Proof.
  induction d as [|[j m] d IH]; cbn [q_add map fst]; [right; auto|]. destruct (q_eqb k j) eqn:E; [left; reflexivity|]. apply q_eqb_neq in E. cbn [map fst].
  destruct IH as [->|(-> & N)]; [left; auto|right]. split; auto. intros [->|I]; congruence || contradiction.
Qed.
Lemma q_add_nodup k n d : NoDup (map fst d) -> NoDup (map fst (q_add k n d)).
Proof.
  intro ND. destruct (q_add_keys k n d) as [->|(-> & N)]; auto. apply NoDup_rev in ND. rewrite <- (rev_involutive (map fst d ++ [k])). apply NoDup_rev. rewrite rev_app_distr. cbn. constructor; auto. now rewrite <- in_rev.
Qed.
Lemma size_nodup l : forall d, NoDup (map fst d) -> NoDup (map fst (size_distrib d l)).
Proof. induction l as [|b l IH]; intros d N; auto. cbn [size_distrib]. apply IH. now apply q_add_nodup. Qed.
Lemma q_get_in k n d : NoDup (map fst d) -> In (k, n) d -> q_get k d = n.
Proof.
  induction d as [|[j m] d IH]; intros ND I; [destruct I|]. cbn [q_get]. destruct I as [E|I].
  - inversion E; subst. now rewrite q_eqb_refl.
  - inversion ND; subst. destruct (q_eqb k j) eqn:E; auto. apply q_eqb_eq in E. subst j. exfalso. apply H1. apply in_map_iff. exists (k, n). auto.
Qed.
Lemma q_get_bound k d m : 0 <= m -> Forall (fun kn => snd kn <= m) d -> q_get k d <= m.
Proof. intros M F. induction F as [|[j n] d H _ IH]; cbn [q_get]; auto. destruct (q_eqb k j); auto. Qed.
Lemma typical_dominant l : dominant l (typical_font_size l).
Proof.
  intro s'. assert (ND : NoDup (map fst (size_distrib [] l))) by (apply size_nodup; constructor).
  assert (G : forall s, q_get s (size_distrib [] l) = Z.of_nat (chars l s)) by (intro s; rewrite size_get; cbn; lia).
  unfold typical_font_size, most_frequent. destruct (most_from _ (qc 0) 0 ND) as [(-> & F)|(n & I & L & F)].
  - assert (B := q_get_bound s' _ 0 ltac:(lia) F). rewrite G in B. lia.
  - apply (q_get_in _ _ _ ND) in I. rewrite G in I. assert (B := q_get_bound s' _ n ltac:(lia) F). rewrite G in B. lia.
Qed.
Lemma chars_perm l m s : Permutation l m -> chars l s = chars m s.
Proof.
  unfold chars. induction 1 as [|x l m _ IH|x y l|l m k _ IH1 _ IH2]; auto; cbn [map list_sum fold_right] in *.
  - f_equal. exact IH.
  - rewrite !Nat.add_assoc. f_equal. apply Nat.add_comm.
  - congruence.
Qed.
Lemma dominant_perm l m s : Permutation l m -> dominant l s -> dominant m s.
Proof. intros P D s'. rewrite <- !(chars_perm l m _ P). apply D. Qed.

(* ---------- margin ---------- *)
Lemma minimum_ok l : forall m, m <> qc (-1) -> Forall (fun b => tb_x b <> qc (-1)) l ->
  let r := minimum_from m l in (r <= m)%Qc /\ Forall (fun b => r <= tb_x b)%Qc l /\ (r = m \/ exists b, In b l /\ tb_x b = r).
Proof.
  induction l as [|b l IH]; intros m N F; cbn [minimum_from]; [split; [apply Qcle_refl|auto]|]. inversion F as [|? ? F1 F2]; subst.
  apply q_eqb_neq in N as N'. rewrite N'. cbn [orb]. destruct (q_ltb (tb_x b) m) eqn:E.
  - destruct (IH (tb_x b) F1 F2) as (A1 & A2 & A3). apply q_ltb_lt in E. split; [eapply Qcle_trans; [exact A1|now apply Qclt_le_weak]|]. split; [constructor; auto|].
    destruct A3 as [A3|(c & I & A3)]; right; [exists b; split; [left|]; auto|exists c; split; [right|]; auto].
  - destruct (IH m N F2) as (A1 & A2 & A3). apply q_ltb_ge in E. split; auto. split; [constructor; auto; eapply Qcle_trans; eauto|].
    destruct A3 as [A3|(c & I & A3)]; [left; auto|right; exists c; split; [right|]; auto].
Qed.
Lemma margin_ok l : l <> [] -> Forall (fun b => tb_x b <> qc (-1)) l -> margin l (minimum_x l).
Proof.
  intros N F. destruct l as [|b l]; [congruence|]. inversion F as [|? ? F1 F2]; subst. unfold minimum_x. cbn [minimum_from]. rewrite q_eqb_refl. cbn [orb].
  destruct (minimum_ok l (tb_x b) F1 F2) as (A1 & A2 & A3). split; [|constructor; auto]. destruct A3 as [A3|(c & I & A3)]; [exists b; split; [left|]; auto|exists c; split; [right|]; auto].
Qed.
Lemma margin_perm l m x : Permutation l m -> margin l x -> margin m x.
Proof. intros P ((b & I & E) & F). split; [exists b; split; auto; eapply Permutation_in; eauto|eapply Permutation_Forall; eauto]. Qed.

(* ---------- width of a character ---------- *)
Lemma width_distrib_eq fs l : width_distrib fs l = map (fun b => tb_w b / qc (Z.of_nat (length (tb_text b))))%Qc (filter (usable fs) l).
Proof.
  induction l as [|b l IH]; [reflexivity|]. cbn [width_distrib filter]. unfold usable at 1. unfold q_eqb. rewrite IH.
  destruct (Qc_eq_dec (tb_s b) fs); cbn [negb orb andb]; [|reflexivity]. destruct (Nat.ltb_spec (length (tb_text b)) 2), (Nat.leb_spec 2 (length (tb_text b))); try lia; reflexivity.
Qed.
Lemma fold_qsum l : forall a, fold_left Qcplus l a = (a + qsum l)%Qc.
Proof. induction l as [|x l IH]; intro a; cbn [fold_left qsum fold_right]; [symmetry; apply Qcplus_0_r|]. rewrite IH. fold (qsum l). ring. Qed.
Lemma qc_pos n : 0 < n -> (0 < qc n)%Qc.
Proof. intro L. unfold qc, Qclt. cbn [this Q2Qc]. rewrite !Qred_correct. change 0%Q with (inject_Z 0). now rewrite <- Zlt_Qlt. Qed.
Lemma pos_neq x : (0 < x)%Qc -> x <> 0%Qc.
Proof. intros L ->. exact (Qcle_not_lt _ _ (Qcle_refl 0) L). Qed.
Lemma qadd_pos x y : (0 < x)%Qc -> (0 <= y)%Qc -> (0 < x + y)%Qc.
Proof. intros A C. eapply Qclt_le_trans; [exact A|]. replace x with (x + 0)%Qc at 1 by ring. apply Qcplus_le_compat; [apply Qcle_refl|exact C]. Qed.
Lemma qsum_pos l : l <> [] -> Forall (fun x => 0 < x)%Qc l -> (0 < qsum l)%Qc.
Proof.
  intros N F. assert (G : (0 <= qsum l)%Qc /\ (l <> [] -> 0 < qsum l)%Qc); [|tauto]. clear N. induction F as [|x l H _ (IH & _)]; cbn [qsum fold_right]; [split; [apply Qcle_refl|congruence]|].
  fold (qsum l). assert (P := qadd_pos _ _ H IH). split; [now apply Qclt_le_weak|auto].
Qed.
Lemma qdiv_pos x n : (0 < x)%Qc -> 0 < n -> (0 < x / qc n)%Qc.
Proof.
  intros A L. apply qc_pos in L. assert (E : (x / qc n * qc n = x)%Qc) by (unfold Qcdiv; rewrite <- Qcmult_assoc, (Qcmult_comm (/ _)), Qcmult_inv_r, Qcmult_1_r; [reflexivity|now apply pos_neq]).
  apply Qcnot_le_lt. intro C. assert (C2 : (x / qc n * qc n <= 0 * qc n)%Qc) by (apply Qcmult_le_compat_r; [exact C|now apply Qclt_le_weak]).
  rewrite E, Qcmult_0_l in C2. exact (Qcle_not_lt _ _ C2 A).
Qed.
Lemma average_ok l fs : filter (usable fs) l <> [] -> average_width l fs (typical_char_width l fs).
Proof.
  intro N. unfold average_width, typical_char_width. split; auto. rewrite width_distrib_eq. destruct (filter (usable fs) l) as [|b m] eqn:E; [congruence|].
  set (f := fun b => _). cbn [map]. change (f b :: map f m) with (map f (b :: m)). rewrite fold_qsum, map_length.
  assert (NZ : qc (Z.of_nat (length (b :: m))) <> 0%Qc) by (apply pos_neq, qc_pos; cbn [length]; lia).
  unfold Qcdiv. rewrite <- Qcmult_assoc, (Qcmult_comm (/ _)), Qcmult_inv_r, Qcmult_1_r by auto. change (qc 0) with 0%Qc. apply Qcplus_0_l.
Qed.
Lemma average_pos l fs cw : Forall (fun b => (2 <= length (tb_text b))%nat -> (0 < tb_w b)%Qc) l -> average_width l fs cw -> cw <> qc 0.
Proof.
  intros F (N & E) ->. change (qc 0) with 0%Qc in E. rewrite Qcmult_0_l in E. symmetry in E. revert E. apply pos_neq. apply qsum_pos; [destruct (filter (usable fs) l); [congruence|discriminate]|].
  apply Forall_map, Forall_forall. intros b I. apply filter_In in I as (I & U). unfold usable in U. apply andb_true_iff in U as (_ & U). apply Nat.leb_le in U.
  rewrite Forall_forall in F. apply qdiv_pos; [apply F; auto; lia|lia].
Qed.
Lemma average_perm l m fs cw : Permutation l m -> average_width l fs cw -> average_width m fs cw.
Proof.
  intros P (N & E). assert (PF : Permutation (filter (usable fs) l) (filter (usable fs) m)).
  { clear -P. induction P as [|x l m _ IH|x y l|l m k _ IH1 _ IH2]; cbn [filter]; auto; [destruct (usable fs x); auto| |etransitivity; eauto].
    destruct (usable fs x), (usable fs y); auto. apply perm_swap. }
  split; [intro C; rewrite C in PF; apply Permutation_sym, Permutation_nil in PF; congruence|].
  rewrite <- (Permutation_length PF), E. generalize (Permutation_map (fun b => tb_w b / qc (Z.of_nat (length (tb_text b))))%Qc PF).
  generalize (map (fun b => tb_w b / qc (Z.of_nat (length (tb_text b))))%Qc (filter (usable fs) l)) as a. generalize (map (fun b => tb_w b / qc (Z.of_nat (length (tb_text b))))%Qc (filter (usable fs) m)) as c.
  intros c a Q. unfold qsum. clear -Q. induction Q as [|x l m _ IH|x y l|l m k _ IH1 _ IH2]; cbn [fold_right]; auto; [now rewrite IH|ring|congruence].
Qed.

(* ---------- distance between lines ---------- *)
Definition col_entry (l : list tblock) (fs : Qc) (c : Qc * list Qc) : Prop :=
  Forall (fun y => exists b, In b l /\ tb_s b = fs /\ tb_x b = fst c /\ tb_y b = y) (snd c).
Lemma col_add_ok l fs b c : In b l -> tb_s b = fs -> Forall (col_entry l fs) c -> Forall (col_entry l fs) (col_add (tb_x b) (tb_y b) c).
Proof.
  intros I E F. induction F as [|[j ys] c H F IH]; cbn [col_add].
  - constructor; auto. constructor; auto. exists b. auto.
  - destruct (q_eqb (tb_x b) j) eqn:EJ; [|constructor; auto]. apply q_eqb_eq in EJ. constructor; auto. unfold col_entry in *. cbn [fst snd] in *. apply Forall_app. split; auto. constructor; auto. exists b. auto.
Qed.
Lemma columns_ok l fs m : incl m l -> forall c, Forall (col_entry l fs) c -> Forall (col_entry l fs) (columns_of fs c m).
Proof.
  induction m as [|b m IH]; intros I c F; cbn [columns_of]; auto. destruct (q_eqb (tb_s b) fs) eqn:E; apply IH; auto; try (intros x X; apply I; right; auto).
  apply q_eqb_eq in E. apply col_add_ok; auto. apply I. left. auto.
Qed.
Definition a_delta (l : list tblock) (fs d : Qc) : Prop :=
  exists a b, In a l /\ In b l /\ tb_s a = fs /\ tb_s b = fs /\ tb_x a = tb_x b /\ (tb_y a <= tb_y b)%Qc /\ d = (qc (q_int ((tb_y b - tb_y a) * qc 10)) / qc 10)%Qc.
Lemma q_add_forall (P : Qc -> Prop) k n d : P k -> Forall (fun kn => P (fst kn)) d -> Forall (fun kn => P (fst kn)) (q_add k n d).
Proof. intros H F. induction F as [|[j m] d H2 F IH]; cbn [q_add]; [constructor; auto|]. destruct (q_eqb k j); constructor; auto. Qed.
Lemma deltas_ok l fs x ys : StronglySorted (fun a b => a <= b)%Qc ys -> (Forall (fun y => exists b, In b l /\ tb_s b = fs /\ tb_x b = x /\ tb_y b = y) ys) ->
  forall d, Forall (fun kn => a_delta l fs (fst kn)) d -> Forall (fun kn => a_delta l fs (fst kn)) (deltas d ys).
Proof.
  intros SS F. induction ys as [|y ys IH]; intros d D; cbn [deltas]; auto. destruct ys as [|z ys]; auto. inversion SS as [|? ? SS' FS]; subst. inversion F as [|? ? (a & A1 & A2 & A3 & A4) F']; subst. apply IH; auto.
  inversion F' as [|? ? (b & B1 & B2 & B3 & B4) _]; subst. inversion FS; subst. apply (q_add_forall (a_delta l _)); auto. exists a, b. repeat split; auto.
Qed.
Lemma distrib_ok l fs c : Forall (col_entry l fs) c -> forall d, Forall (fun kn => a_delta l fs (fst kn)) d -> Forall (fun kn => a_delta l fs (fst kn)) (delta_distrib d c).
Proof.
  induction 1 as [|[x ys] c H F IH]; intros d D; cbn [delta_distrib]; auto. destruct (length ys <? 3)%nat; auto. apply IH. apply (deltas_ok l fs x); auto; [apply (sort_by_sorted (fun y => y))|].
  eapply Permutation_Forall; [apply sort_by_perm|]. exact H.
Qed.
Lemma most_in d : forall best occ, most_frequent_from best occ d = best \/ In (most_frequent_from best occ d) (map fst d).
Proof.
  induction d as [|[s n] d IH]; intros best occ; cbn [most_frequent_from map fst]; auto. destruct (occ <? n); [destruct (IH s n) as [->|I]|destruct (IH best occ) as [->|I]]; cbn; auto.
Qed.
Lemma q_int_floor x : (0 <= x)%Qc -> q_int x = Qfloor (this x).
Proof.
  intro H. unfold q_int, Qfloor. destruct (this x) as [n d] eqn:E. cbn [Qnum Qden]. apply Z.quot_div_nonneg; [|lia].
  unfold Qcle in H. cbn in H. rewrite E in H. unfold Qle in H. cbn in H. lia.
Qed.
Lemma ten_neq : qc 10 <> 0%Qc.
Proof. apply pos_neq, qc_pos. lia. Qed.
Lemma div_ten x : (x / qc 10 * qc 10 = x)%Qc.
Proof. unfold Qcdiv. rewrite <- Qcmult_assoc, (Qcmult_comm (/ _)), Qcmult_inv_r, Qcmult_1_r; [reflexivity|exact ten_neq]. Qed.
Lemma spacing_ok l fs : let sp := typical_line_spacing l fs in line_distance l fs sp /\ ((0 < fs)%Qc -> (0 < sp)%Qc).
Proof.
  cbn zeta. unfold typical_line_spacing. set (tls := most_frequent _). destruct (q_eqb tls (qc 0)) eqn:E; [split; [left; auto|auto]|]. apply q_eqb_neq in E.
  assert (D : a_delta l fs tls).
  { assert (F := distrib_ok l fs _ (columns_ok l fs l (incl_refl _) [] (Forall_nil _)) [] (Forall_nil _)). destruct (most_in (delta_distrib [] (columns_of fs [] l)) (qc 0) 0) as [C|I]; [contradiction|].
    apply in_map_iff in I as (kn & EK & I). rewrite Forall_forall in F. specialize (F _ I). cbn beta in F. rewrite EK in F. exact F. }
  destruct D as (a & b & Ia & Ib & Sa & Sb & X & Y & ET).
  assert (NN : (0 <= (tb_y b - tb_y a) * qc 10)%Qc). { rewrite <- (Qcmult_0_l (qc 10)). apply Qcmult_le_compat_r; [now apply sub_nonneg|]. apply Qclt_le_weak, qc_pos. lia. }
  assert (E10 : (tls * qc 10 = qc (Qfloor (this ((tb_y b - tb_y a) * qc 10))))%Qc) by (rewrite ET, div_ten, q_int_floor by auto; reflexivity).
  split; [right; exists a, b; repeat split; auto|]. intros _.
  assert (FN : 0 <= Qfloor (this ((tb_y b - tb_y a) * qc 10)%Qc)). { change 0 with (Qfloor 0). apply Qfloor_resp_le. exact NN. }
  destruct (Z.eq_dec (Qfloor (this ((tb_y b - tb_y a) * qc 10)%Qc)) 0) as [Z0|NZ].
  - exfalso. apply E. rewrite Z0 in E10. assert (H : (tls = tls * qc 10 / qc 10)%Qc) by (unfold Qcdiv; rewrite <- Qcmult_assoc, Qcmult_inv_r, Qcmult_1_r; [reflexivity|exact ten_neq]).
    rewrite H, E10. change (qc 0) with 0%Qc. unfold Qcdiv. apply Qcmult_0_l.
  - apply Qcnot_le_lt. intro C. assert (C2 : (tls * qc 10 <= 0 * qc 10)%Qc) by (apply Qcmult_le_compat_r; [exact C|apply Qclt_le_weak, qc_pos; lia]).
    rewrite E10, Qcmult_0_l in C2. refine (Qcle_not_lt _ _ C2 (qc_pos _ _)). lia.
Qed.
Lemma distance_perm l m s sp : Permutation l m -> line_distance l s sp -> line_distance m s sp.
Proof. intros P [H|(a & b & Ia & Ib & H)]; [left; auto|right]. exists a, b. split; [eapply Permutation_in; eauto|]. split; [eapply Permutation_in; eauto|auto]. Qed.
Lemma in_lines_perm sp l m lines : Permutation l m -> in_lines sp l lines -> in_lines sp m lines.
Proof. intros P (H & R). split; auto. etransitivity; [symmetry; exact P|exact H]. Qed.
Lemma sorted_desc l : StronglySorted desc (sort_by (fun b => - tb_y b)%Qc l).
Proof.
  assert (H := sort_by_sorted (fun b => - tb_y b)%Qc l). induction H as [|b m H IH F]; constructor; auto. eapply Forall_impl; [|exact F]. intros a L. unfold desc. cbn in L.
  apply Qcopp_le_compat in L. now rewrite !Qcopp_involutive in L.
Qed.

(* ---------- theorems ---------- *)
Theorem layout_texts blocks out : basic_spatial_layout blocks = Ok out ->
  exists s sp lines, dominant blocks s /\ line_distance blocks s sp /\ in_lines sp blocks lines /\
    ink out = ink (flat_map tb_text (concat lines)).
Proof.
  intro E. unfold basic_spatial_layout in E. set (l := sort_by _ blocks) in *. assert (P : Permutation l blocks) by (symmetry; apply sort_by_perm). assert (SS : StronglySorted desc l) by apply sorted_desc.
  set (fs := typical_font_size l) in *. set (sp := typical_line_spacing l fs) in *.
  destruct (loop_ok _ _ _ _ _ _ _ _ SS E) as (gs & ss & EC & G & F2 & ->). exists fs, sp, (map (sort_by tb_x) gs).
  split; [apply (dominant_perm l); auto; apply typical_dominant|]. split; [apply (distance_perm l); auto; apply spacing_ok|].
  split; [apply (in_lines_perm _ l); auto; now apply in_lines_of|]. cbn [app]. eapply joined_ink; eauto.
Qed.
Theorem layout_page blocks : blocks <> [] -> Forall (fun b => (0 < tb_s b)%Qc) blocks ->
  Forall (fun b => (2 <= length (tb_text b))%nat -> (0 < tb_w b)%Qc) blocks ->
  Forall (fun b => tb_x b <> qc (-1) /\ tb_y b <> qc (-1)) blocks ->
  (forall s, dominant blocks s -> exists b, In b blocks /\ tb_s b = s /\ (2 <= length (tb_text b))%nat) ->
  exists s sp cw mx lines rows out, basic_spatial_layout blocks = Ok out /\
    dominant blocks s /\ line_distance blocks s sp /\ (0 < sp)%Qc /\ average_width blocks s cw /\ margin blocks mx /\
    in_lines sp blocks lines /\ Forall2 (row mx cw) lines rows /\ page sp lines rows out.
Proof.
  intros NB FS FW FN D. unfold basic_spatial_layout. set (l := sort_by _ blocks). assert (P : Permutation l blocks) by (symmetry; apply sort_by_perm). assert (SS : StronglySorted desc l) by apply sorted_desc.
  assert (NL : l <> []) by (intro C; rewrite C in P; apply Permutation_nil in P; congruence).
  set (fs := typical_font_size l). set (sp := typical_line_spacing l fs). set (cw := typical_char_width l fs). set (mx := minimum_x l).
  assert (DF : dominant blocks fs) by (apply (dominant_perm l); auto; apply typical_dominant).
  destruct (D fs DF) as (b & Ib & Sb & Lb). assert (PF : (0 < fs)%Qc) by (rewrite <- Sb; rewrite Forall_forall in FS; auto).
  destruct (spacing_ok l fs) as (LD & PS). fold sp in LD, PS. specialize (PS PF).
  assert (NU : filter (usable fs) l <> []). { intro C. assert (I : In b (filter (usable fs) l)); [|rewrite C in I; destruct I]. apply filter_In. split; [eapply Permutation_in; [symmetry; exact P|auto]|]. unfold usable. destruct (Qc_eq_dec (tb_s b) fs); [|contradiction]. cbn [andb]. now apply Nat.leb_le. }
  assert (AW := average_ok l fs NU). fold cw in AW. assert (AWb := average_perm _ _ _ _ P AW). assert (CW : cw <> qc 0) by (apply (average_pos blocks fs); auto).
  assert (SP : sp <> qc 0) by (now apply pos_neq).
  destruct (loop_total mx cw sp CW SP (length l) l (qc (-1)) [] (Nat.le_refl _)) as (out & E).
  assert (FNl : Forall (fun b => tb_x b <> qc (-1) /\ tb_y b <> qc (-1)) l) by (eapply Permutation_Forall; [symmetry; exact P|exact FN]).
  destruct (loop_ok _ _ _ _ _ _ _ _ SS E) as (gs & ss & EC & G & F2 & ER). exists fs, sp, cw, mx, (map (sort_by tb_x) gs), ss, out.
  split; [exact E|]. split; [exact DF|]. split; [now apply (distance_perm l)|]. split; [exact PS|]. split; [exact AWb|].
  split; [apply (margin_perm l); auto; apply margin_ok; auto; eapply Forall_impl; [|exact FNl]; intros a (H & _); exact H|].
  split; [apply (in_lines_perm _ l); auto; now apply in_lines_of|]. split.
  - clear -F2. induction F2 as [|g s gs ss E _ IH]; constructor; auto. now apply row_of.
  - subst out. cbn [app]. inversion G as [E0|b0 g gs' N0 G' NX E0]; subst gs; [cbn in EC; congruence|]. inversion F2 as [|? s0 ? ss0 ES F2']; subst. cbn [joined].
    unfold inter_lines at 1. rewrite q_eqb_refl. cbn [Z.to_nat repeat app]. apply page_of; auto; try (rewrite EC); auto.
    + eapply Forall_impl; [|exact FNl]. intros a (_ & H). exact H.
    + clear -G'. induction G'; constructor; auto. discriminate.
    + clear -F2'. induction F2'; cbn; auto.
Qed.
Theorem page_text_order {ZL : Model_Filters.Zlib} contents fonts out : page_text contents fonts = Ok out ->
  exists tfs order, build_text_fragments contents fonts = Ok tfs /\
    Permutation (map (fun f => snd (fst f)) tfs) order /\ ink out = ink (concat order).
Proof.
  unfold page_text. destruct (build_text_fragments contents fonts) as [tfs| |]; try discriminate. cbn [bind]. intro E.
  destruct (layout_texts _ _ E) as (s & sp & lines & _ & _ & (P & _) & EI). exists tfs, (map tb_text (concat lines)). split; [reflexivity|]. split.
  - rewrite <- (Permutation_map tb_text P). unfold simplify. rewrite map_map. apply Permutation_refl'. apply map_ext. intros ((old & uc) & new). reflexivity.
  - rewrite EI, flat_map_concat_map. reflexivity.
Qed.
