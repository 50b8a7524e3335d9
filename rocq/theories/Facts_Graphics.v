(* Facts about content streams and the graphics state *)
From Coq Require Import String QArith Qcanon ZifyBool ZifyNat.
From Verif Require Import PyBase Model_Filters Model_Objects Spec_Objects Facts_Base
  Model_Text Model_Graphics Spec_Graphics.
Open Scope Z_scope.

(* ---------- matrices ---------- *)
Lemma mul_assoc a b c : multiply_matrices (multiply_matrices a b) c = multiply_matrices a (multiply_matrices b c).
Proof. unfold multiply_matrices; cbn [ma mb mc md me mf]. f_equal; ring. Qed.
Lemma mul_id_l m : multiply_matrices IDENTITY_MATRIX m = m.
Proof. destruct m as [x1 x2 x3 x4 x5 x6]. unfold multiply_matrices, IDENTITY_MATRIX; cbn [ma mb mc md me mf]. f_equal; ring. Qed.
Lemma mul_id_r m : multiply_matrices m IDENTITY_MATRIX = m.
Proof. destruct m as [x1 x2 x3 x4 x5 x6]. unfold multiply_matrices, IDENTITY_MATRIX; cbn [ma mb mc md me mf]. f_equal; ring. Qed.
Lemma act_mul a b p : act (multiply_matrices a b) p = act b (act a p).
Proof. destruct p as [u v]. unfold multiply_matrices, act; cbn [ma mb mc md me mf]. f_equal; ring. Qed.
Lemma act_shift x y m p : act (multiply_matrices (mkmat 1 0 0 1 x y) m) p = act m (shift p (x, y)).
Proof. rewrite act_mul. destruct p as [u v]. f_equal. unfold act, shift. cbn [ma mb mc md me mf]. f_equal; ring. Qed.

(* ---------- operators ---------- *)
Lemma op_is_iff o w : op_is o w = true <-> o = PStr (B w).
Proof.
  unfold op_is. destruct o; split; intro H; try discriminate.
  - apply beqb_eq in H. now subst.
  - injection H as ->. apply beqb_refl.
Qed.
Lemma last_op {A} (l : list A) x d : last (l ++ [x]) d = x.
Proof. induction l as [|y r IH]; [reflexivity|]. cbn. destruct (r ++ [x]) eqn:E; [destruct r; discriminate|exact IH]. Qed.
Lemma command_op_app ops o : command_op (ops ++ [o]) = Ok o.
Proof. unfold command_op. rewrite last_op. destruct (ops ++ [o]) eqn:E; [destruct ops; discriminate|reflexivity]. Qed.
Lemma command_op_inv c o : command_op c = Ok o -> exists ops, c = ops ++ [o].
Proof.
  unfold command_op. destruct c as [|a r]; [discriminate|]. intro H. injection H as H.
  exists (removelast (a :: r)). rewrite <- H. exact (app_removelast_last PNone (l := a :: r) ltac:(discriminate)).
Qed.
Lemma is_cmd_op w c : is_cmd w c <-> command_op c = Ok (PStr (B w)).
Proof.
  split; intro H; [destruct H as [ops ->]; apply command_op_app|].
  apply command_op_inv in H. exact H.
Qed.
Ltac ops := repeat match goal with |- context [op_is (PStr (B ?a)) ?w] =>
  let v := eval vm_compute in (op_is (PStr (B a)) w) in change (op_is (PStr (B a)) w) with v end; cbv iota.

Lemma apply_q c g st ts : is_cmd "q" c -> apply_command c (g :: st) ts =
  Ok (g :: g :: st, match ts with None => ts0 | Some t => t end).
Proof. intro H. apply is_cmd_op in H. unfold apply_command. rewrite H. cbn [bind]. ops. reflexivity. Qed.
Lemma apply_Q c g st ts : is_cmd "Q" c -> apply_command c (g :: st) ts =
  Ok (st, match ts with None => ts0 | Some t => t end).
Proof. intro H. apply is_cmd_op in H. unfold apply_command. rewrite H. cbn [bind]. ops. reflexivity. Qed.

Ltac cmd_cases := repeat match goal with
  | H : (if op_is ?o ?w then _ else _) = Ok _ |- _ => let E := fresh "E" in destruct (op_is o w) eqn:E
  | H : (if beqb ?o ?w then _ else _) = Ok _ |- _ => let E := fresh "E" in destruct (beqb o w) eqn:E
  | H : bind ?r _ = Ok _ |- _ => let E := fresh "E" in destruct r eqn:E; cbn [bind] in H; [|discriminate|discriminate]
  end.
(* a command that is neither q nor Q only changes the top of the stack *)
Lemma apply_other c g st ts gs' ts' : ~ is_cmd "q" c -> ~ is_cmd "Q" c ->
  apply_command c (g :: st) ts = Ok (gs', ts') -> exists g', gs' = g' :: st.
Proof.
  intros Hq HQ H. rewrite is_cmd_op in Hq, HQ. unfold apply_command in H. cbn [hd tl] in H.
  destruct (command_op c) as [o| |] eqn:Eo; cbn [bind] in H; try discriminate.
  destruct (op_is o "q") eqn:E1; [apply op_is_iff in E1; subst; contradiction|].
  destruct (op_is o "Q") eqn:E2; [apply op_is_iff in E2; subst; contradiction|].
  cmd_cases; injection H as <- <-; eauto.
Qed.

Lemma run_app a : forall b gs ts, run_commands (a ++ b) gs ts =
  (let* (g, t) := run_commands a gs ts in run_commands b g t).
Proof.
  induction a as [|c r IH]; intros b gs ts; [reflexivity|]. cbn [app run_commands].
  destruct (apply_command c gs ts) as [[g t]| |]; cbn [bind]; [apply IH|reflexivity|reflexivity].
Qed.
Lemma balanced_run s : balanced s -> forall g st ts gs' ts',
  run_commands s (g :: st) ts = Ok (gs', ts') -> exists g', gs' = g' :: st.
Proof.
  induction 1 as [|c r Hq HQ _ IH|a s b r Ha _ IHs Hb _ IHr]; intros g st ts gs' ts' H.
  - injection H as <- <-. eauto.
  - cbn [run_commands] in H. destruct (apply_command c (g :: st) ts) as [[g1 t1]| |] eqn:E; cbn [bind] in H; try discriminate.
    destruct (apply_other _ _ _ _ _ _ Hq HQ E) as [g' ->]. eapply IH; eauto.
  - cbn [run_commands] in H. rewrite (apply_q _ _ _ _ Ha) in H. cbn [bind] in H. rewrite run_app in H.
    destruct (run_commands s _ _) as [[g1 t1]| |] eqn:E; cbn [bind] in H; try discriminate.
    destruct (IHs _ _ _ _ _ E) as [g' ->]. cbn [run_commands] in H. rewrite (apply_Q _ _ _ _ Hb) in H. cbn [bind] in H.
    eapply IHr; eauto.
Qed.
Lemma save_restore a s b gs ts gs' ts' : is_cmd "q" a -> balanced s -> is_cmd "Q" b -> gs <> [] ->
  run_commands (a :: s ++ [b]) gs ts = Ok (gs', ts') -> gs' = gs.
Proof.
  intros Ha Hs Hb Hg H. destruct gs as [|g st]; [contradiction|].
  cbn [run_commands] in H. rewrite (apply_q _ _ _ _ Ha) in H. cbn [bind] in H. rewrite run_app in H.
  destruct (run_commands s _ _) as [[g1 t1]| |] eqn:E; cbn [bind] in H; try discriminate.
  destruct (balanced_run _ Hs _ _ _ _ _ E) as [g' ->]. cbn [run_commands] in H. rewrite (apply_Q _ _ _ _ Hb) in H.
  cbn [bind] in H. injection H as <- <-. reflexivity.
Qed.

(* the effect of each operator *)
Definition cur (ts : option tstate) : tstate := match ts with None => ts0 | Some t => t end.
Lemma six_num a b c d e f m rest : mat_of (a :: b :: c :: d :: e :: f :: rest) = Ok m ->
  num_of a = Ok (ma m) /\ num_of b = Ok (mb m) /\ num_of c = Ok (mc m) /\
  num_of d = Ok (md m) /\ num_of e = Ok (me m) /\ num_of f = Ok (mf m).
Proof.
  unfold mat_of. intro H. cmd_cases. injection H as <-. cbn. repeat split; assumption.
Qed.
Lemma six_mat a b c d e f qa qb qc' qd qe qf rest : num_of a = Ok qa -> num_of b = Ok qb -> num_of c = Ok qc' ->
  num_of d = Ok qd -> num_of e = Ok qe -> num_of f = Ok qf ->
  mat_of (a :: b :: c :: d :: e :: f :: rest) = Ok (mkmat qa qb qc' qd qe qf).
Proof. unfold mat_of. intros -> -> -> -> -> ->. reflexivity. Qed.
Ltac run_op := unfold apply_command; match goal with |- context [command_op (?l ++ [?o])] => rewrite (command_op_app l o) | _ => cbn [command_op last] end; cbn [bind hd tl]; ops.

Lemma op_cm a b c d e f m g st ts : mat_of [a; b; c; d; e; f] = Ok m ->
  exists g', apply_command [a; b; c; d; e; f; PStr (B "cm")] (g :: st) ts = Ok (g' :: st, cur ts) /\
  forall p, act g' p = act g (act m p).
Proof.
  intro H. exists (multiply_matrices m g). split; [|apply act_mul].
  unfold apply_command. cbn [command_op last bind hd tl]. ops.
  assert (E : mat_of [a; b; c; d; e; f; PStr (B "cm")] = Ok m) by exact H. rewrite E. reflexivity.
Qed.
Lemma op_Tm a b c d e f m gs ts : gs <> [] -> mat_of [a; b; c; d; e; f] = Ok m ->
  apply_command [a; b; c; d; e; f; PStr (B "Tm")] gs ts = Ok (gs, set_tm m m (cur ts)).
Proof.
  intros Hg H. destruct gs as [|g st]; [contradiction|]. unfold apply_command. cbn [command_op last bind hd tl]. ops.
  assert (E : mat_of [a; b; c; d; e; f; PStr (B "Tm")] = Ok m) by exact H. rewrite E. cbn [bind]. now rewrite mul_id_r.
Qed.
Lemma op_BT gs ts : gs <> [] -> apply_command [PStr (B "BT")] gs ts =
  Ok (gs, set_tm IDENTITY_MATRIX IDENTITY_MATRIX (cur ts)).
Proof. intro Hg. destruct gs as [|g st]; [contradiction|]. unfold apply_command. cbn [command_op last bind hd tl]. ops. reflexivity. Qed.
Lemma do_Td_ok x y qx qy ts : num_of x = Ok qx -> num_of y = Ok qy ->
  exists m, do_Td x y ts = Ok (set_tm m m ts) /\ forall p, act m p = act (t_tlm ts) (shift p (qx, qy)).
Proof. intros Hx Hy. unfold do_Td. rewrite Hx, Hy. cbn [bind]. eexists. split; [reflexivity|]. apply act_shift. Qed.
Lemma op_Td x y qx qy gs ts : gs <> [] -> num_of x = Ok qx -> num_of y = Ok qy ->
  exists m, apply_command [x; y; PStr (B "Td")] gs ts = Ok (gs, set_tm m m (cur ts)) /\
  forall p, act m p = act (t_tlm (cur ts)) (shift p (qx, qy)).
Proof.
  intros Hg Hx Hy. destruct gs as [|g st]; [contradiction|]. destruct (do_Td_ok x y qx qy (cur ts) Hx Hy) as (m & E & G).
  exists m. split; [|exact G]. unfold apply_command. cbn [command_op last bind hd tl]. ops.
  cbn [arg nth_error of_opt bind]. unfold cur in E. rewrite E. reflexivity.
Qed.
Lemma q2qc_opp q : Q2Qc (Qopp q) = Qcopp (Q2Qc q).
Proof. unfold Qcopp. apply Q2Qc_eq_iff. change (this (Q2Qc q)) with (Qred q). now rewrite Qred_correct. Qed.
Lemma qc_opp z : qc (- z) = (- qc z)%Qc.
Proof. unfold qc. rewrite inject_Z_opp. apply q2qc_opp. Qed.
Lemma num_neg x q : num_of x = Ok q -> exists x', neg_of x = Ok x' /\ num_of x' = Ok (- q)%Qc.
Proof.
  destruct x as [|b|z|m e| | | | | |]; intro H; try discriminate; injection H as <-; cbn [neg_of];
    eexists; (split; [reflexivity|]); cbn [num_of]; f_equal.
  - apply qc_opp.
  - apply qc_opp.
  - unfold qreal. destruct (0 <=? e); [rewrite Z.mul_opp_l; apply qc_opp|].
    exact (q2qc_opp (m # Z.to_pos (10 ^ (- e)))).
Qed.
Lemma op_TD x y qx qy gs ts : gs <> [] -> num_of x = Ok qx -> num_of y = Ok qy ->
  exists l m, num_of l = Ok (- qy)%Qc /\
  apply_command [x; y; PStr (B "TD")] gs ts = Ok (gs, set_tm m m (set_Tl l (cur ts))) /\
  forall p, act m p = act (t_tlm (cur ts)) (shift p (qx, qy)).
Proof.
  intros Hg Hx Hy. destruct gs as [|g st]; [contradiction|]. destruct (num_neg y qy Hy) as (l & El & Hl).
  destruct (do_Td_ok x y qx qy (set_Tl l (cur ts)) Hx Hy) as (m & E & G).
  exists l, m. split; [exact Hl|]. split; [|exact G].
  unfold apply_command. cbn [command_op last bind hd tl]. ops.
  cbn [arg nth_error of_opt bind]. rewrite El. cbn [bind]. unfold cur in E. rewrite E. reflexivity.
Qed.
Lemma do_Tstar_ok ql ts : num_of (t_Tl ts) = Ok ql ->
  exists m, do_Tstar ts = Ok (set_tm m m ts) /\ forall p, act m p = act (t_tlm ts) (shift p (qc 0, (- ql)%Qc)).
Proof.
  intro H. destruct (num_neg _ _ H) as (l & El & Hl). unfold do_Tstar. rewrite El. cbn [bind].
  apply do_Td_ok; [reflexivity|exact Hl].
Qed.
Lemma op_Tstar ops w ql gs ts : w = "T*"%string \/ w = "'"%string -> gs <> [] -> num_of (t_Tl (cur ts)) = Ok ql ->
  exists m, apply_command (ops ++ [PStr (B w)]) gs ts = Ok (gs, set_tm m m (cur ts)) /\
  forall p, act m p = act (t_tlm (cur ts)) (shift p (qc 0, (- ql)%Qc)).
Proof.
  intros Hw Hg H. destruct gs as [|g st]; [contradiction|]. destruct (do_Tstar_ok ql (cur ts) H) as (m & E & G).
  exists m. split; [|exact G]. unfold apply_command. rewrite command_op_app. cbn [bind hd tl]. unfold cur in E.
  destruct Hw; subst w; ops; rewrite E; reflexivity.
Qed.
Lemma op_dquote w c s ql gs ts : gs <> [] -> num_of (t_Tl (cur ts)) = Ok ql ->
  exists m, apply_command [w; c; s; PStr [34]] gs ts = Ok (gs, set_tm m m (set_Tc c (set_Tw w (cur ts)))) /\
  forall p, act m p = act (t_tlm (cur ts)) (shift p (qc 0, (- ql)%Qc)).
Proof.
  intros Hg H. destruct gs as [|g st]; [contradiction|].
  destruct (do_Tstar_ok ql (set_Tc c (set_Tw w (cur ts))) H) as (m & E & G).
  exists m. split; [|exact G]. unfold apply_command. cbn [command_op last bind hd tl].
  repeat match goal with |- context [op_is (PStr [34]) ?x] =>
    let v := eval vm_compute in (op_is (PStr [34]) x) in change (op_is (PStr [34]) x) with v end. cbv iota.
  change (beqb [34] [34]) with true. cbv iota. cbn [arg nth_error of_opt bind]. unfold cur in E. rewrite E. reflexivity.
Qed.
Lemma op_params v f s gs ts : gs <> [] ->
  apply_command [v; PStr (B "Tc")] gs ts = Ok (gs, set_Tc v (cur ts)) /\
  apply_command [v; PStr (B "Tw")] gs ts = Ok (gs, set_Tw v (cur ts)) /\
  apply_command [v; PStr (B "Tz")] gs ts = Ok (gs, set_Th v (cur ts)) /\
  apply_command [v; PStr (B "TL")] gs ts = Ok (gs, set_Tl v (cur ts)) /\
  apply_command [f; s; PStr (B "Tf")] gs ts = Ok (gs, set_font f s (cur ts)) /\
  apply_command [v; PStr (B "Tr")] gs ts = Ok (gs, set_Tmode v (cur ts)) /\
  apply_command [v; PStr (B "Ts")] gs ts = Ok (gs, set_Trise v (cur ts)).
Proof. intro Hg. destruct gs as [|g st]; [contradiction|]. repeat split; unfold apply_command; cbn [command_op last bind hd tl]; ops; reflexivity. Qed.
Lemma Td_adds x1 y1 x2 y2 x y a b c d gs ts : gs <> [] ->
  num_of x1 = Ok a -> num_of y1 = Ok b -> num_of x2 = Ok c -> num_of y2 = Ok d ->
  num_of x = Ok (a + c)%Qc -> num_of y = Ok (b + d)%Qc ->
  run_commands [[x1; y1; PStr (B "Td")]; [x2; y2; PStr (B "Td")]] gs ts =
  run_commands [[x; y; PStr (B "Td")]] gs ts.
Proof.
  intros Hg H1 H2 H3 H4 H5 H6. destruct gs as [|g st]; [contradiction|].
  cbn [run_commands]. unfold apply_command. cbn [command_op last bind hd tl]. ops.
  cbn [arg nth_error of_opt bind]. unfold do_Td. rewrite H1, H2. cbn [bind]. rewrite H3, H4, H5, H6. cbn [bind].
  cbn [set_tm t_tlm]. assert (E : multiply_matrices (mkmat 1 0 0 1 c d) (multiply_matrices (mkmat 1 0 0 1 a b) (t_tlm (cur ts))) =
    multiply_matrices (mkmat 1 0 0 1 (a + c) (b + d)) (t_tlm (cur ts))).
  { rewrite <- mul_assoc. f_equal. unfold multiply_matrices. cbn [ma mb mc md me mf]. f_equal; ring. }
  unfold cur in E. rewrite E. reflexivity.
Qed.
Lemma trm_act ts g st fs th rise : num_of (t_Tfs ts) = Ok fs -> num_of (t_Th ts) = Ok th -> num_of (t_Trise ts) = Ok rise ->
  exists m, trm ts (g :: st) = Ok m /\
  forall x y, act m (x, y) = act g (act (t_tm ts) ((fs * th / qc 100 * x)%Qc, (fs * y + rise)%Qc)).
Proof.
  intros H1 H2 H3. unfold trm. rewrite H1, H2, H3. cbn [bind]. eexists. split; [reflexivity|].
  intros x y. rewrite !act_mul. do 2 f_equal. unfold act. cbn [ma mb mc md me mf]. f_equal; ring.
Qed.

(* ---------- commands ---------- *)
Lemma is_operator_iff o : is_operator o = true <-> operator o.
Proof.
  unfold is_operator, operator. split.
  - destruct o; try discriminate. intro H. exists s. split; [reflexivity|]. intros r ->. discriminate H.
  - intros (s & -> & H). apply negb_true_iff. apply beqb_neq. intro C. destruct s as [|c r]; [discriminate|]. cbn in C. injection C as ->. eapply H; eauto.
Qed.
Lemma is_operator_no o : is_operator o = false -> ~ operator o.
Proof. intros H C. apply is_operator_iff in C. congruence. Qed.

(* cutting forwards *)
Fixpoint cut (ops : list obj) (l : list obj) : list (list obj) :=
  match l with
  | [] => match ops with [] => [] | _ => [ops] end
  | t :: r => if is_operator t then (ops ++ [t]) :: cut [] r else cut (ops ++ [t]) r
  end.
Lemma cut_splits l : forall ops, Forall (fun o => ~ operator o) ops -> splits (ops ++ l) (cut ops l).
Proof.
  induction l as [|t r IH]; intros ops H.
  - rewrite app_nil_r. cbn [cut]. destruct ops as [|o ops]; [constructor|]. apply Sp_rest; [discriminate|exact H].
  - cbn [cut]. destruct (is_operator t) eqn:E.
    + apply Sp_cmd; [exact H|now apply is_operator_iff|]. exact (IH [] ltac:(constructor)).
    + change (ops ++ t :: r) with (ops ++ [t] ++ r). rewrite app_assoc. apply IH.
      apply Forall_app. split; [exact H|]. constructor; [now apply is_operator_no|constructor].
Qed.
(* backwards: [current; ret] is the cut of what has been read *)
Definition add_first (t : obj) (l : list (list obj)) : list (list obj) :=
  if is_operator t then [t] :: l else match l with [] => [[t]] | c :: r => (t :: c) :: r end.
Lemma cut_ops l : forall ops, ops <> [] -> exists c r, cut ops l = (ops ++ c) :: r /\
  (forall ops', ops' <> [] -> cut ops' l = (ops' ++ c) :: r) /\
  match c with [] => l = [] /\ r = [] | _ => cut [] l = c :: r end.
Proof.
  induction l as [|t r IH]; intros ops H.
  - exists [], []. cbn [cut]. rewrite app_nil_r. split; [destruct ops; [contradiction|reflexivity]|].
    split; [|auto]. intros ops' H'. rewrite app_nil_r. destruct ops'; [contradiction|reflexivity].
  - cbn [cut]. destruct (is_operator t) eqn:E.
    + exists [t], (cut [] r). repeat split.
    + destruct (IH [t] ltac:(discriminate)) as (c & x & E1 & E2 & E3).
      exists (t :: c), x. split; [rewrite E2 by (destruct ops; discriminate); now rewrite <- app_assoc|].
      split; [intros ops' H'; rewrite E2 by (destruct ops'; discriminate); now rewrite <- app_assoc|].
      cbn [app]. exact E1.
Qed.
Lemma cut_cons t l : cut [] (t :: l) = if is_operator t then [t] :: cut [] l else
  match l with [] => [[t]] | x :: _ => match cut [] l with [] => [[t]] | c :: r => (t :: c) :: r end end.
Proof.
  cbn [cut app]. destruct (is_operator t); [reflexivity|]. destruct (cut_ops l [t] ltac:(discriminate)) as (c & r & E1 & E2 & E3).
  rewrite E1. destruct l as [|x l].
  - destruct c; [destruct E3 as [_ ->]; reflexivity|discriminate E3].
  - destruct c; [destruct E3 as [E3 _]; discriminate|]. rewrite E3. reflexivity.
Qed.

(* the state (current, ret) stands for the cut of the tokens read so far *)
Definition stands (cr : list obj * list (list obj)) (l : list obj) : Prop :=
  match l with
  | [] => cr = ([], [])
  | _ => fst cr <> [] /\ cut [] l = fst cr :: snd cr
  end.
Lemma cut_nonnil t l : cut [] (t :: l) <> [].
Proof. rewrite cut_cons. destruct (is_operator t); [discriminate|]. destruct l; [discriminate|]. destruct (cut [] (o :: l)); discriminate. Qed.
Lemma psc_step t l cur ret : stands (cur, ret) l ->
  (if is_operator t then stands ([t], match cur with [] => ret | _ => cur :: ret end) (t :: l)
   else stands (t :: cur, ret) (t :: l)).
Proof.
  intro H. destruct (is_operator t) eqn:E; cbn [stands fst snd]; (split; [discriminate|]); rewrite cut_cons, E.
  - f_equal. destruct l as [|x l]; cbn [stands fst snd] in H.
    + injection H as -> ->. reflexivity.
    + destruct H as [Hn ->]. destruct cur; [contradiction|reflexivity].
  - destruct l as [|x l]; cbn [stands fst snd] in H.
    + injection H as -> ->. reflexivity.
    + destruct H as [Hn ->]. reflexivity.
Qed.
Lemma psc_loop_inv r : forall l cur ret, stands (cur, ret) l -> r <> [] ->
  let toks := rev r ++ l in
  match toks with
  | [] => False
  | t0 :: _ =>
      exists c x, cut [] toks = c :: x /\ c <> [] /\
      psc_loop r cur ret = (c, if is_operator t0 then x else c :: x)
  end.
Proof.
  induction r as [|t r IH]; intros l cur ret H Hn; [contradiction|]. cbn [psc_loop].
  pose proof (psc_step t l cur ret H) as St.
  destruct r as [|t' r].
  - cbn [rev app]. destruct (is_operator t) eqn:E.
    + cbn [psc_loop]. destruct St as [S1 S2]. cbn [fst snd] in *. eexists _, _. split; [exact S2|]. split; [discriminate|reflexivity].
    + cbn [psc_loop]. destruct St as [S1 S2]. cbn [fst snd] in *. eexists _, _. split; [exact S2|]. split; [discriminate|reflexivity].
  - assert (E : rev (t :: t' :: r) ++ l = rev (t' :: r) ++ (t :: l)) by (cbn [rev]; rewrite <- !app_assoc; reflexivity).
    cbv zeta. rewrite E. destruct (is_operator t) eqn:Eo.
    + apply (IH (t :: l)); [exact St|discriminate].
    + apply (IH (t :: l)); [exact St|discriminate].
Qed.
Lemma stream_commands {ZL : Zlib} c toks : parse_obj ([91] ++ c ++ [93]) 0 = Ok (PList toks) ->
  exists cmds, splits toks cmds /\ parse_stream_content c =
    Ok (match toks with
        | t0 :: _ => if is_operator t0 then cmds else firstn 1 cmds ++ cmds
        | [] => cmds
        end).
Proof.
  intro H. exists (cut [] toks). split; [apply (cut_splits toks []); constructor|].
  unfold parse_stream_content. rewrite H. cbn [bind].
  destruct toks as [|t0 toks]; [reflexivity|].
  assert (Hr : rev (t0 :: toks) <> []) by (cbn [rev]; destruct (rev toks); discriminate).
  pose proof (psc_loop_inv (rev (t0 :: toks)) [] [] [] eq_refl Hr) as P. cbv zeta in P.
  rewrite rev_involutive, app_nil_r in P. destruct P as (k & x & E & Hk & ->).
  rewrite E. destruct k as [|k0 k]; [contradiction|].
  destruct (is_operator t0); reflexivity.
Qed.

(* ---------- showing text ---------- *)
Lemma add_widths_ok f chars ws : Forall2 (fun c w => num_of (f c) = Ok w) chars ws -> forall w0,
  add_widths f chars w0 = Ok (w0 + sum_q ws / qc 1000)%Qc.
Proof.
  induction 1 as [|c w r ws Hc _ IH]; intro w0; cbn [add_widths sum_q].
  - f_equal. unfold Qcdiv. ring.
  - rewrite Hc. cbn [bind]. rewrite IH. f_equal. unfold Qcdiv. ring.
Qed.
Lemma num_of_not_str o v : num_of o = Ok v -> forall s, o <> PBytes s.
Proof. intros H s ->. discriminate H. Qed.
(* the width found for a TJ array: what the standard says, plus a fifth of a space per number *)
Lemma tj_items_width f sp l : num_of (f_width f 32) = Ok sp -> q_int sp <> 0 -> Forall (tj_ok f) l ->
  forall u0 w0, exists u, tj_items f (map tj_obj l) u0 w0 =
    Ok (u, w0 + sum_q (map tj_advance l) + qc (tj_count l) * (sp * (qc 2 / qc 10) / qc 1000))%Qc.
Proof.
  intros Hs Hi H. induction H as [|e l He _ IH]; intros u0 w0; cbn [map tj_items].
  - exists u0. do 2 f_equal. cbn [sum_q tj_count fold_right]. replace (qc 0) with 0%Qc by (apply Qc_is_canon; reflexivity). ring.
  - destruct e as [s us ws|o v]; cbn [tj_obj tj_ok] in *.
    + destruct He as (chars & Hd & Hw). cbn [tj_item]. rewrite Hd. cbn [bind]. rewrite (add_widths_ok _ _ _ Hw). cbn [bind].
      destruct (IH (u0 ++ us) (w0 + sum_q ws / qc 1000)%Qc) as [u E]. exists u. rewrite E. do 2 f_equal.
      cbn [sum_q map tj_advance tj_count fold_right]. fold (tj_count l). ring.
    + assert (Et : exists u1, tj_item f o u0 w0 = Ok (u1, w0 - (v - sp * (qc 2 / qc 10)) / qc 1000)%Qc).
      { destruct o; try discriminate; cbn [tj_item]; rewrite Hs; cbn [bind]; rewrite He; cbn [bind];
        (destruct (q_leb _ _); [destruct (Z.eqb_spec (q_int sp) 0); [contradiction|]|]; cbn [bind]; eexists; reflexivity). }
      destruct Et as [u1 ->]. cbn [bind].
      destruct (IH u1 (w0 - (v - sp * (qc 2 / qc 10)) / qc 1000)%Qc) as [u E]. exists u. rewrite E. do 2 f_equal.
      cbn [sum_q map tj_advance tj_count fold_right]. fold (tj_count l).
      replace (qc (tj_count l + 1)) with (qc (tj_count l) + 1)%Qc.
      2:{ unfold qc, Qcplus. apply Q2Qc_eq_iff. change (this 1) with (1#1)%Q. change (this (Q2Qc (inject_Z (tj_count l)))) with (Qred (inject_Z (tj_count l))).
          rewrite Qred_correct. rewrite inject_Z_plus. reflexivity. }
      unfold Qcdiv. ring.
Qed.
(* an array of strings only *)
Lemma tj_strings f l : Forall (fun e => tj_ok f e /\ exists s us ws, e = TJStr s us ws) l -> forall u0 w0,
  tj_items f (map tj_obj l) u0 w0 =
  Ok (u0 ++ concat (map (fun e => match e with TJStr _ us _ => us | _ => [] end) l), w0 + sum_q (map tj_advance l))%Qc.
Proof.
  induction 1 as [|e l He _ IH]; intros u0 w0; cbn [map tj_items].
  - cbn [concat sum_q]. rewrite app_nil_r. do 2 f_equal. ring.
  - destruct He as [He (s & us & ws & ->)]. cbn [tj_obj tj_ok tj_item] in *. destruct He as (chars & Hd & Hw).
    rewrite Hd. cbn [bind]. rewrite (add_widths_ok _ _ _ Hw). cbn [bind]. rewrite IH. cbn [map concat sum_q tj_advance].
    rewrite <- app_assoc. do 2 f_equal. ring.
Qed.

(* fragments: one per Tj or TJ command, in order *)
Lemma shows_dec c o : command_op c = Ok o -> (op_is o "TJ" || op_is o "Tj" = true <-> shows c).
Proof.
  intro H. unfold shows. rewrite !is_cmd_op, H. rewrite orb_true_iff, !op_is_iff. split; intros [E|E]; rewrite ?E; auto; injection E as ->; auto.
Qed.
Lemma fragments_count fonts cs : forall gs ts fr, fragments_loop fonts cs gs ts = Ok fr ->
  exists sel, shown cs sel /\ length sel = length fr.
Proof.
  induction cs as [|c r IH]; intros gs ts fr H; cbn [fragments_loop] in H.
  - injection H as <-. exists []. split; [constructor|reflexivity].
  - destruct (command_op c) as [o| |] eqn:Eo; cbn [bind] in H; try discriminate.
    destruct o; cbn [bind] in H; try discriminate.
    destruct (apply_command c gs ts) as [[gs1 ts1]| |] eqn:Ea; cbn [bind] in H; try discriminate.
    destruct (op_is (PStr s) "TJ" || op_is (PStr s) "Tj") eqn:Es.
    + cmd_cases. destruct a0 as [u d]. cbn [bind] in *. cmd_cases.
      injection H as <-. match goal with E : fragments_loop _ _ _ _ = Ok _ |- _ => apply IH in E; destruct E as (sel & S1 & S2) end.
      assert (Hc : shows c) by (apply (shows_dec c _ Eo); exact Es).
      exists (c :: sel). split; [now constructor|cbn; lia].
    + apply IH in H. destruct H as (sel & S1 & S2). exists sel. split; [|exact S2]. constructor; [|exact S1].
      intro C. apply (shows_dec c _ Eo) in C. congruence.
Qed.
(* a shown string starts at the current text position and advances it *)
Lemma fragment_first fonts s r g st ts fr f us chars ws fs th rise tc tw :
  fragments_loop fonts ([PBytes s; PStr (B "Tj")] :: r) (g :: st) (Some ts) = Ok fr ->
  font_of fonts (t_Tf ts) = Ok f -> f_dec f s = Ok (us, chars) ->
  Forall2 (fun c w => num_of (f_width f c) = Ok w) chars ws ->
  num_of (t_Tfs ts) = Ok fs -> num_of (t_Th ts) = Ok th -> num_of (t_Trise ts) = Ok rise ->
  num_of (t_Tc ts) = Ok tc -> num_of (t_Tw ts) = Ok tw ->
  exists old new rest m, fr = (old, us, new) :: rest /\
  (forall x y, act old (x, y) = act g (act (t_tm ts) ((fs * th / qc 100 * x)%Qc, (fs * y + rise)%Qc))) /\
  (forall p, act m p = act (t_tm ts) (shift p ((sum_q ws / qc 1000 * fs + tc + tw) * th / qc 100, 0)%Qc)) /\
  (forall x y, act new (x, y) = act g (act m ((fs * th / qc 100 * x)%Qc, (fs * y + rise)%Qc))) /\
  fragments_loop fonts r (g :: st) (Some (set_tm m (t_tlm ts) ts)) = Ok rest.
Proof.
  intros H Hf Hd Hw Hfs Hth Hri Htc Htw. cbn [fragments_loop command_op last bind] in H.
  assert (Ea : apply_command [PBytes s; PStr (B "Tj")] (g :: st) (Some ts) = Ok (g :: st, ts)).
  { unfold apply_command. cbn [command_op last bind hd tl]. ops. reflexivity. }
  rewrite Ea in H. cbn [bind] in H.
  change (op_is (PStr (B "Tj")) "TJ" || op_is (PStr (B "Tj")) "Tj") with true in H. cbv iota in H.
  destruct (trm_act ts g st fs th rise Hfs Hth Hri) as (old & Eo & Ho). rewrite Eo in H. cbn [bind] in H.
  assert (Et : text_element_to_unicode fonts [PBytes s; PStr (B "Tj")] ts = Ok (us, (sum_q ws / qc 1000)%Qc)).
  { unfold text_element_to_unicode. cbn [command_op last bind]. ops. cbn [before_last rev app bind].
    rewrite Hf. cbn [bind tj_item]. rewrite Hd. cbn [bind]. rewrite (add_widths_ok _ _ _ Hw). cbn [bind app].
    do 2 f_equal. replace (qc 0) with 0%Qc by (apply Qc_is_canon; reflexivity). ring. }
  rewrite Et in H. cbn [bind] in H. rewrite Hfs, Htc, Htw, Hth in H. cbn [bind] in H.
  set (tx := ((sum_q ws / qc 1000 * fs + tc + tw) * th / qc 100)%Qc) in *.
  set (m := multiply_matrices (mkmat 1 0 0 1 tx 0) (t_tm ts)) in *.
  destruct (trm_act (set_tm m (t_tlm ts) ts) g st fs th rise Hfs Hth Hri) as (new & En & Hn). rewrite En in H. cbn [bind] in H.
  destruct (fragments_loop fonts r (g :: st) _) as [rest| |] eqn:Er; cbn [bind] in H; try discriminate.
  injection H as <-. exists old, new, rest, m. split; [reflexivity|]. split; [exact Ho|]. split; [intro p; apply act_shift|].
  split; [exact Hn|exact Er].
Qed.

Lemma qc_plus a b : qc (a + b) = (qc a + qc b)%Qc.
Proof. unfold qc. apply Qc_is_canon. cbn [this Q2Qc Qcplus]. rewrite !Qred_correct. rewrite inject_Z_plus. reflexivity. Qed.
Lemma string_shift_sum fs tc tw th chars : forall ws, length chars = length ws ->
  string_shift fs tc tw th chars ws =
  ((sum_q ws / qc 1000 * fs + qc (Z.of_nat (length chars)) * tc + qc (spaces chars) * tw) * th / qc 100)%Qc.
Proof.
  unfold string_shift, spaces. assert (Z0 : qc 0 = 0%Qc) by (apply Qc_is_canon; reflexivity).
  assert (Z1 : qc 1 = 1%Qc) by (apply Qc_is_canon; reflexivity).
  assert (N1 : qc 1000 <> 0%Qc) by discriminate. assert (N2 : qc 100 <> 0%Qc) by discriminate.
  induction chars as [|c chars IH]; intros [|w ws] L; try discriminate.
  - cbn [combine map sum_q filter length]. change (Z.of_nat 0) with 0. rewrite Z0. field. auto.
  - cbn [combine map sum_q fst snd]. rewrite IH by (cbn in L; congruence). unfold glyph_shift.
    cbn [filter]. destruct (c =? 32); cbn [length]; rewrite ?Nat2Z.inj_succ; unfold Z.succ; rewrite ?qc_plus, Z1; field; auto.
Qed.
Lemma fragment_spacing fonts s r g st ts fr f us chars ws fs th rise tc tw :
  fragments_loop fonts ([PBytes s; PStr (B "Tj")] :: r) (g :: st) (Some ts) = Ok fr ->
  font_of fonts (t_Tf ts) = Ok f -> f_dec f s = Ok (us, chars) ->
  Forall2 (fun c w => num_of (f_width f c) = Ok w) chars ws ->
  num_of (t_Tfs ts) = Ok fs -> num_of (t_Th ts) = Ok th -> num_of (t_Trise ts) = Ok rise ->
  num_of (t_Tc ts) = Ok tc -> num_of (t_Tw ts) = Ok tw ->
  exists m rest, fragments_loop fonts r (g :: st) (Some (set_tm m (t_tlm ts) ts)) = Ok rest /\
  forall p, act m p = act (t_tm ts) (shift p (string_shift fs tc tw th chars ws
     + (qc (1 - Z.of_nat (length chars)) * tc + qc (1 - spaces chars) * tw) * th / qc 100, 0)%Qc).
Proof.
  intros H Hf Hd Hw Hfs Hth Hri Htc Htw.
  destruct (fragment_first fonts s r g st ts fr f us chars ws fs th rise tc tw H Hf Hd Hw Hfs Hth Hri Htc Htw)
    as (old & new & rest & m & _ & _ & Hm & _ & Hr).
  exists m, rest. split; [exact Hr|]. intro p. rewrite Hm. do 3 f_equal.
  rewrite string_shift_sum by (clear - Hw; induction Hw; cbn; congruence).
  assert (N1 : qc 1000 <> 0%Qc) by discriminate. assert (N2 : qc 100 <> 0%Qc) by discriminate.
  assert (Z1 : qc 1 = 1%Qc) by (apply Qc_is_canon; reflexivity).
  replace (qc (1 - Z.of_nat (length chars))) with (1 - qc (Z.of_nat (length chars)))%Qc by (rewrite <- Z1 at 1; replace (qc 1) with (qc (1 - Z.of_nat (length chars)) + qc (Z.of_nat (length chars)))%Qc by (rewrite <- qc_plus; f_equal; lia); ring).
  replace (qc (1 - spaces chars)) with (1 - qc (spaces chars))%Qc by (rewrite <- Z1 at 1; replace (qc 1) with (qc (1 - spaces chars) + qc (spaces chars))%Qc by (rewrite <- qc_plus; f_equal; lia); ring).
  field. auto.
Qed.

(* ---------- printable streams ---------- *)
Lemma replace1_no c w s : ~ In c w -> ~ In c (replace1 c w s).
Proof.
  intros Hw H. unfold replace1 in H. apply in_flat_map in H. destruct H as (x & _ & Hx).
  destruct (Z.eqb_spec x c); [contradiction|]. destruct Hx as [->|[]]. contradiction.
Qed.
Lemma replace1_keep c w d s : ~ In d w -> d <> c -> In d (replace1 c w s) <-> In d s.
Proof.
  intros Hw Hd. unfold replace1. rewrite in_flat_map. split.
  - intros (x & Hx & H). destruct (Z.eqb_spec x c); [contradiction|]. destruct H as [->|[]]. exact Hx.
  - intro H. exists d. split; [exact H|]. destruct (Z.eqb_spec d c); [contradiction|now left].
Qed.
Lemma printable_safe c p : printable_stream_content c = Some p -> ~ In 60 p /\ ~ In 62 p.
Proof.
  unfold printable_stream_content. destruct (existsb _ c); [discriminate|]. intro H. injection H as <-. split.
  - intro C. apply replace1_keep in C; [|vm_compute; intuition discriminate|discriminate].
    revert C. apply replace1_no. vm_compute. intuition discriminate.
  - apply replace1_no. vm_compute. intuition discriminate.
Qed.
