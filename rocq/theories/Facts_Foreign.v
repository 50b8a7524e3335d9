(* Incremental updates of files made by other programs. *)
From Coq Require Import String Sorted Permutation.
From Verif Require Import PyBase Model_Filters Model_Objects Model_Filestruct Model_Text Model_Docstruct Model_Api.
From Verif Require Import Spec_Objects Spec_Filestruct Spec_Docstruct Spec_Api Spec_Save Spec_Packed Spec_Foreign.
From Verif Require Import Facts_Base Facts_Token Facts_Ser Facts_Top Facts_Stream Facts_Indirect Facts_Obj Facts_Revision Facts_Doc Facts_Commit Facts_Xref Facts_Xstm Facts_Prov Facts_Index Facts_Write Facts_Chain Facts_Objstm Facts_Save Facts_Packed.
From Coq Require Import ZifyBool ZifyNat.

(* ---------- the index of any file ---------- *)
Lemma remember_some k h e : remember k h e <> [].
Proof. unfold remember. destruct h as [|[v e0] h]; [discriminate|]. destruct (n_pos e0), (n_pos e); try discriminate. destruct (apos_eqb _ _); discriminate. Qed.
Lemma fold_some k l : forall h, h <> [] \/ l <> [] -> fold_left (remember k) l h <> [].
Proof.
  induction l as [|e l IH]; intros h [H|H]; cbn [fold_left]; auto; try congruence; apply IH; left; apply remember_some.
Qed.
Lemma history_keeps n secs : forall k h, h <> [] -> history n k h secs <> [].
Proof. induction secs as [|s secs IH]; intros k h H; cbn [history]; auto. apply IH. apply fold_some. auto. Qed.
Lemma history_some n secs : forall k h i s e, nth_error secs i = Some s -> In e (tl s) -> n_num e = n -> history n k h secs <> [].
Proof.
  induction secs as [|s0 secs IH]; intros k h [|i] s e E I N; cbn in E; try discriminate; cbn [history].
  - injection E as ->. apply history_keeps. apply fold_some. right. intro Q. assert (J : In e (filter (fun x => n_num x =? n) (tl s))) by (apply filter_In; split; [auto|lia]). rewrite Q in J. destruct J.
  - eauto.
Qed.
Lemma history_none n secs : forall k h, (forall s e, In s secs -> In e (tl s) -> n_num e <> n) -> history n k h secs = h.
Proof.
  induction secs as [|s secs IH]; intros k h H; cbn [history]; auto. rewrite IH; [|intros; eapply H; eauto; right; auto].
  unfold remember_all. replace (filter _ (tl s)) with (@nil ient); auto. symmetry. destruct (filter _ _) as [|e l] eqn:Q; auto. exfalso.
  assert (J : In e (filter (fun x => n_num x =? n) (tl s))) by (rewrite Q; left; auto). apply filter_In in J as [J E]. eapply (H s); eauto; [left; auto|lia].
Qed.

(* what the index has for an entry *)
Definition kin (v : Z) (o : nat) (e e' : ient) : Prop :=
  n_num e' = n_num e /\ n_gen e' = n_gen e /\ n_env e' = n_env e /\ n_del e' = n_del e /\ n_dver e' = Some v /\ n_over e' = Some (Z.of_nat o) /\
  n_pos e' <> None /\ forall p, direct_at e p -> n_pos e' = Some (AInt p) /\ exists x, n_next e' = Some x /\ p < x.
Definition matches (h : list (Z * ient)) (c : slot) : Prop :=
  match h with [] => c = SNone | (v, e) :: older => exists e', c = SDict e' /\ kin v (length older) e e' end.
Definition head_cell (k : nat) (sec : list ient) (row : list slot) : Prop :=
  exists t es p x, sec = t :: es /\ n_pos t = Some (AInt p) /\ p < x /\
    cell row 0 (SDict (with_next (Some x) (with_dver (Some (Z.of_nat k)) (with_over (Some (Z.of_nat k)) t)))).

Lemma index_any F cs : sectioned F cs -> cs <> [] -> exists nxt nb idx,
  finish_seq cs (blen F) = Ok (nxt, nb) /\ build_index cs nxt nb = Ok idx /\ length idx = length cs /\ 0 <= nb /\
  (forall s e, In s cs -> In e (tl s) -> n_num e <= nb) /\
  (nb = 0 \/ exists s e, In s cs /\ In e (tl s) /\ n_num e = nb) /\
  forall k row sec, nth_error idx k = Some row -> nth_error (rev cs) k = Some sec ->
    length row = Z.to_nat (nb + 2) /\ head_cell k sec row /\
    forall n, ok_num nb n -> exists c, pyget row n = Ok c /\ matches (history n 0 [] (firstn (S k) (rev cs))) c.
Proof.
  intros [INC ENT HEAD NUM EOF INS CON] NE.
  assert (IT : forall (s : list ient) e, In e (tl s) -> In e s) by (intros [|x s] e I; [destruct I|right; exact I]).
  destruct (finish_seq cs (blen F)) as [[nxt nb]| |] eqn:FS.
  2,3: exfalso; destruct cs as [|s cs]; [congruence|]; destruct (HEAD s (or_introl eq_refl)) as (t & es & -> & _ & EV);
    destruct (ENT (t :: es) t (or_introl eq_refl) (or_introl eq_refl)) as (_ & _ & [(p & (_ & P) & _)|(env & off & Q & _)]); [|congruence];
    revert FS; unfold finish_seq; cbn [flat_map]; unfold seq_of; cbn [flat_map]; rewrite EV, P; cbn [app]; discriminate.
  destruct (following_position _ _ _ _ FS) as (FP & NI & NM).
  { apply Forall_forall. intros [p n] I. apply in_flat_map in I as (c & C & I). unfold seq_of in I. apply in_flat_map in I as (e & E & I).
    destruct (ENT c e C E) as (_ & _ & [(q & (E1 & E2) & QB)|(env & off & Q & _)]); [|rewrite Q in I; destruct I]. rewrite E1, E2 in I. destruct I as [I|[]]. injection I as <- <-. cbn [fst]. lia. }
  assert (DIR : forall s e, In s cs -> In e s -> n_env e = None -> exists p, n_pos e = Some (AInt p) /\ 0 <= p < blen F /\ In p (map fst (flat_map seq_of cs)) /\ n_num e <= nb).
  { intros s e C E EV. destruct (ENT s e C E) as (_ & _ & [(p & (_ & P) & PB)|(env & off & Q & _)]); [|congruence]. exists p. split; auto. split; auto.
    assert (S2 : In (p, n_num e) (flat_map seq_of cs)). { apply in_flat_map. exists s. split; auto. unfold seq_of. apply in_flat_map. exists e. split; auto. rewrite EV, P. left. auto. }
    split; [apply (in_map fst) in S2; exact S2|]. rewrite Forall_forall in NM. specialize (NM _ S2). exact NM. }
  assert (LX : forall p, In p (map fst (flat_map seq_of cs)) -> p < blen F -> exists x, zlookup p nxt = Some x /\ p < x).
  { intros p I PB. assert (G : forall l, exists b, least_above (blen F :: l) p b).
    { clear -PB. induction l as [|a l (b & B1 & B2 & B3)]; [exists (blen F); split; [left; auto|split; auto]; intros c [<-|[]]; lia|].
      destruct (Z_lt_dec p a) as [PA|PA]; [destruct (Z_le_dec a b) as [AB|AB]|].
      - exists a. split; [right; left; auto|]. split; auto. intros c [<-|[<-|C]] PC; try lia; [specialize (B3 (blen F) (or_introl eq_refl)); lia|specialize (B3 c (or_intror C) PC); lia].
      - exists b. split; [destruct B1; [left|right; right]; auto|]. split; auto. intros c [<-|[<-|C]] PC; try lia; apply B3; cbn [In]; auto.
      - exists b. split; [destruct B1; [left|right; right]; auto|]. split; auto. intros c [<-|[<-|C]] PC; try lia; apply B3; cbn [In]; auto. }
    destruct (G (map fst (flat_map seq_of cs))) as (b & B). exists b. split; [apply FP; auto|]. destruct B as (_ & B & _). exact B. }
  assert (LOC : forall s e, In s cs -> In e s -> n_env e = None -> exists p x, n_pos e = Some (AInt p) /\ zlookup p nxt = Some x /\ p < x).
  { intros s e C E EV. destruct (DIR s e C E EV) as (p & P & PB & IP & _). destruct (LX p IP ltac:(lia)) as (x & X & L). exists p, x. auto. }
  assert (NB : 0 <= nb).
  { destruct cs as [|s cs]; [congruence|]. destruct (HEAD s (or_introl eq_refl)) as (t & es & -> & N0 & EV).
    destruct (DIR (t :: es) t (or_introl eq_refl) (or_introl eq_refl) EV) as (_ & _ & _ & _ & Q). lia. }
  assert (LE : forall s e, In s cs -> In e (tl s) -> n_num e <= nb).
  { intros s e C E. destruct (NUM s e C E) as [[-> _]|(_ & s' & e' & C' & E' & EV & L)]; [lia|]. destruct (DIR s' e' C' (IT _ _ E') EV) as (_ & _ & _ & _ & Q). lia. }
  assert (FN : Forall (Forall (fun e => n_next e = None)) cs).
  { apply Forall_forall. intros s C. apply Forall_forall. intros e E. apply (ENT s e C E). }
  assert (FO : Forall (fun s => Forall (fun o => ok_num nb (n_num o)) (tl s)) cs).
  { apply Forall_forall. intros s C. apply Forall_forall. intros e E. unfold ok_num. pose proof (LE s e C E). destruct (NUM s e C E) as [[Q _]|[Q _]]; [left; auto|right; lia]. }
  assert (HI : forall n m v e, In (v, e) (history n 0 [] (firstn m (rev cs))) -> exists j s, v = Z.of_nat j /\ (j < length cs)%nat /\ (j < m)%nat /\ nth_error (rev cs) j = Some s /\ In s cs /\ In e (tl s) /\ n_num e = n).
  { intros n m v e I. apply history_in in I as [[]|(j & s & J & -> & I & N)]. assert (JM : (j < length (firstn m (rev cs)))%nat) by (apply nth_error_Some; congruence). rewrite firstn_length, rev_length in JM.
    assert (J2 : nth_error (rev cs) j = Some s) by (rewrite <- (firstn_skipn m (rev cs)), nth_error_app1 by (rewrite firstn_length, rev_length; lia); auto).
    exists j, s. split; [lia|]. split; [lia|]. split; [lia|]. split; auto. split; auto. apply in_rev. eapply nth_error_In; eauto. }
  (* the container of an embedded object, in the row of its version *)
  assert (CT : forall j s e env, nth_error (rev cs) j = Some s -> In e (tl s) -> n_env e = Some env ->
    exists v ce h, history env 0 [] (firstn (S j) (rev cs)) = (v, ce) :: h /\ exists loc x, n_pos ce = Some (AInt loc) /\ zlookup loc nxt = Some x /\ loc < x /\ ok_num nb env).
  { intros j s e env J I EV. destruct (INS j s e env J I EV) as (E0 & i & s' & e' & LI & I' & IE & N').
    assert (C : In s cs) by (apply in_rev; eapply nth_error_In; eauto). assert (C' : In s' cs) by (apply in_rev; eapply nth_error_In; eauto).
    destruct (history env 0 [] (firstn (S j) (rev cs))) as [|[v ce] h] eqn:HE.
    { exfalso. revert HE. apply (history_some env _ 0 [] i s' e'); auto. assert (II : (i < length (rev cs))%nat) by (apply nth_error_Some; congruence).
      rewrite <- (firstn_skipn (S j) (rev cs)), nth_error_app1 in I' by (rewrite firstn_length; lia). exact I'. }
    exists v, ce, h. split; auto. destruct (HI env (S j) v ce) as (j2 & s2 & _ & _ & JJ & J2 & C2 & I2 & N2); [rewrite HE; left; auto|].
    pose proof (CON j s e env j2 s2 ce J I EV ltac:(lia) J2 I2 N2) as EC. destruct (LOC s2 ce C2 (IT _ _ I2) EC) as (loc & x & L1 & L2 & L3). exists loc, x. repeat (split; auto). right. pose proof (LE s2 ce C2 I2). lia. }
  assert (TOT : exists idx, build_index cs nxt nb = Ok idx).
  { unfold build_index. rewrite hybrid_none by (eapply increasing_stm; eauto). cbn [rev app bind].
    assert (FO' : Forall (fun s => Forall (fun o => ok_num nb (n_num o)) (tl s)) (rev cs)) by (apply Forall_rev; auto).
    assert (RL : related nb (repeat SNone (Z.to_nat (nb + 2))) (fun _ => [])).
    { split; [rewrite repeat_length; lia|]. intros n N. split; [|constructor].
      destruct (pyidx_ok (repeat SNone (Z.to_nat (nb + 2))) nb n NB) as (i & PI & I1 & I2); auto; [rewrite repeat_length; lia|].
      rewrite (pyget_slot _ _ _ PI). rewrite repeat_length in I1. rewrite (nth_error_nth' _ SNone) by (rewrite repeat_length; lia).
      rewrite nth_repeat. reflexivity. }
    destruct (build_rows_ok nb (rev cs) NB FO' [] false (repeat SNone (Z.to_nat (nb + 2))) (-1) 0 _ RL INC) as (rows & EB & LB & RB).
    rewrite EB. cbn [rev app bind]. apply map_res_all. intros row I. apply map_res_all. intros c Ic. rewrite rev_length in LB.
    apply In_nth_error in I as [k K]. assert (KB : (k < length rows)%nat) by (apply nth_error_Some; congruence).
    destruct (nth_error (rev cs) k) as [sec|] eqn:ES; [|apply nth_error_None in ES; rewrite rev_length in ES; lia].
    destruct (RB k row sec K ES) as (t & es & -> & R0 & RL1 & RR). replace (-1 + 1 + Z.of_nat k) with (Z.of_nat k) in R0 by lia. change (-1 + 1) with 0 in RR.
    assert (CP : forall e v, (exists s, In s cs /\ In e s) -> n_env e = None -> 0 <= v < Z.of_nat (length cs) -> forall e', n_pos e' = n_pos e -> n_next e' = n_next e -> n_dver e' = Some v -> exists y, complete_slot rows nxt (SDict e') = Ok y).
    { intros e v (s & C & E) EV VB e' P' N' V'. destruct (LOC s e C E EV) as (p & x & P & Z & _). destruct (ENT s e C E) as (N & _). cbn [complete_slot]. unfold complete. rewrite N', N, V', P', P. cbn [of_opt bind].
      destruct (pyget_range rows v) as [rw CR]; [lia|]. apply pyget_cell in CR; [|lia]. rewrite CR. cbn [bind]. rewrite Z. cbn [of_opt bind]. eauto. }
    apply In_nth_error in Ic as [i IC]. assert (LI : (i < length row)%nat) by (apply nth_error_Some; congruence).
    assert (CS : In (t :: es) cs) by (apply in_rev; eapply nth_error_In; eauto).
    destruct i as [|i].
    - rewrite R0 in IC. injection IC as <-. destruct (HEAD _ CS) as (t' & es' & Q & _ & EV). injection Q as <- <-. eapply (CP t (Z.of_nat k)); try reflexivity; auto; [|lia]. exists (t :: es). split; [auto|left; auto].
    - set (n := if Z.of_nat (S i) =? nb + 1 then -1 else Z.of_nat (S i)).
      assert (ON : ok_num nb n) by (unfold n, ok_num; destruct (Z.of_nat (S i) =? nb + 1) eqn:E; [left; auto|right; lia]).
      destruct (RR n ON) as [PG _]. destruct (pyidx_ok row nb n NB RL1 ON) as (i' & PI & I1 & I2).
      rewrite (pyget_slot _ _ _ PI) in PG. assert (i' = S i) by (unfold n in I2; destruct (Z.of_nat (S i) =? nb + 1) eqn:E; destruct (_ =? -1) eqn:E2 in I2; lia).
      subst i'. rewrite IC in PG. cbn [of_opt] in PG.
      assert (EC : c = cell_of (history n 0 [] (firstn (S k) (rev cs)))) by congruence. rewrite EC. clear EC PG IC.
      destruct (history n 0 [] (firstn (S k) (rev cs))) as [|[v e] h] eqn:HE; cbn [cell_of]; [cbn; eauto|].
      destruct (HI n (S k) v e) as (j & s & -> & JL & JK & J & C & IE & N); [rewrite HE; left; auto|].
      destruct (n_env e) as [env|] eqn:EV.
      + destruct (CT j s e env J IE EV) as (v2 & ce & h2 & HC & loc & x & L1 & L2 & L3 & L4).
        destruct (nth_error rows j) as [rj|] eqn:RJ; [|apply nth_error_None in RJ; lia]. destruct (RB j rj s RJ J) as (tj & esj & _ & _ & _ & RRj). change (-1 + 1) with 0 in RRj.
        destruct (RRj env L4) as [PGj _]. rewrite HC in PGj. cbn [cell_of] in PGj. destruct (ENT s e C (IT _ _ IE)) as (NX & _ & [(p & (Q & _) & _)|(env' & off & Q1 & Q2)]); [congruence|]. assert (env' = env) by congruence. subst env'.
        cbn [complete_slot]. unfold complete. cbn [with_dver with_over n_next n_dver n_pos]. rewrite NX, Q2. cbn [of_opt bind].
        rewrite (proj2 (pyget_cell rows (Z.of_nat j) rj ltac:(lia))) by (split; [lia|rewrite Nat2Z.id; auto]). cbn [bind]. rewrite PGj. cbn [bind as_dict with_dver with_over n_pos of_opt]. unfold pos_int. cbn [with_dver with_over n_pos]. rewrite L1. cbn [bind of_opt]. rewrite L2. cbn [bind of_opt]. eauto.
      + eapply (CP e (Z.of_nat j)); try reflexivity; auto; [|lia]. exists s. auto. }
  destruct TOT as [idx EI]. exists nxt, nb, idx. split; [reflexivity|]. split; [exact EI|].
  destruct (index_rows cs nxt nb idx NB INC FN FO EI) as (LI & raw & LR & RW). split; [exact LI|]. split; [exact NB|]. split; [exact LE|]. split.
  { apply in_map_iff in NI as ([p n] & Q & I). cbn [snd] in Q. subst n. apply in_flat_map in I as (c & C & I). unfold seq_of in I. apply in_flat_map in I as (e & E & I).
    assert (EN : n_num e = nb) by (destruct (n_env e); [destruct I|]; destruct (n_pos e) as [[]|]; try (destruct I as [I|[]]; congruence); destruct I).
    destruct (HEAD c C) as (t & es & -> & N0 & _). destruct E as [<-|E]; [left; lia|right; exists (t :: es), e; auto]. }
  intros k row sec K SE. destruct (RW k row sec K SE) as (L & (t & es & c & -> & C0 & CC) & rrow & RK & RN).
  assert (CS : In (t :: es) cs) by (apply in_rev; eapply nth_error_In; eauto).
  split; [exact L|]. split.
  - destruct (HEAD _ CS) as (t' & es' & Q & _ & EV). injection Q as <- <-. destruct (LOC (t :: es) t CS (or_introl eq_refl) EV) as (p & x & P & ZL & PX).
    exists t, es, p, x. split; auto. split; auto. split; auto. split; [lia|]. cbn [Z.to_nat]. rewrite C0. f_equal.
    inversion CC as [|? ? ? P' Z'|? ? ? ? ? ? ? ? P']; subst; cbn [with_dver with_over n_pos] in P'; [|congruence]. assert (p0 = p) by congruence. subst p0. assert (x0 = x) by congruence. subst x0. reflexivity.
  - intros n ON. destruct (RN n ON) as (_ & c' & PC & CP). exists c'. split; auto.
    destruct (history n 0 [] (firstn (S k) (rev cs))) as [|[v e] h] eqn:HE; cbn [cell_of matches] in *.
    + inversion CP. reflexivity.
    + destruct (HI n (S k) v e) as (j & s & -> & JL & JK & J & C & IE & N); [rewrite HE; left; auto|].
      inversion CP as [|e1 p x P Z|e1 v1 row1 env off ce loc x P]; subst; cbn [with_dver with_over n_pos] in P.
      * eexists. split; [reflexivity|]. unfold kin. cbn [with_next with_dver with_over n_num n_gen n_env n_del n_dver n_over n_pos n_next]. repeat (split; [reflexivity|]). split; [congruence|].
        intros q (Q1 & Q2). assert (q = p) by congruence. subst q. split; auto. exists x. split; auto. destruct (LOC s e C (IT _ _ IE) Q1) as (p' & x' & P1 & P2 & P3). assert (p' = p) by congruence. subst p'. assert (x' = x) by congruence. subst x'. auto.
      * eexists. split; [reflexivity|]. unfold kin. cbn [with_next with_pos with_dver with_over n_num n_gen n_env n_del n_dver n_over n_pos n_next]. repeat (split; [reflexivity|]). split; [discriminate|].
        intros q (Q1 & Q2). congruence.
Qed.

Section WithZlib.
Context {ZL : Zlib}.

(* ---------- positions in a single buffer ---------- *)
Lemma parse_single F e p x : n_pos e = Some (AInt p) -> n_next e = Some x -> 0 <= p < blen F -> p < x -> parse_at (PvSingle F) e = object_read F (Z.to_nat p).
Proof.
  intros P N R L. destruct (single_at F (Z.to_nat p) (x - p)) as (m & Q); [unfold blen in R; lia|lia|]. rewrite Z2Nat.id in Q by lia.
  unfold parse_at, entry_bytes, pos_int. rewrite P. cbn [bind]. rewrite N. cbn [of_opt bind]. rewrite Q. cbn [bind]. reflexivity.
Qed.
Lemma trailer_single F e p x : n_pos e = Some (AInt p) -> n_next e = Some x -> 0 <= p < blen F -> p < x -> trailer_at (PvSingle F) e = trailer_read F (Z.to_nat p).
Proof.
  intros P N R L. destruct (single_at F (Z.to_nat p) (x - p)) as (m & Q); [unfold blen in R; lia|lia|]. rewrite Z2Nat.id in Q by lia.
  unfold trailer_at, entry_bytes, pos_int. rewrite P. cbn [bind]. rewrite N. cbn [of_opt bind]. rewrite Q. cbn [bind]. reflexivity.
Qed.

(* ---------- loading ---------- *)
Lemma commit_loaded d chg lx q cache t0 dx dl c p e0 x0 : changes d = Ok chg -> chg <> [] -> d_index d = lx ++ [q] -> d_cache d = cache -> cell cache 0 (PDict t0) ->
  first_xsn d = Ok x0 -> x0 <> Some (-1) -> d_data d = dx ++ [dl] -> dt_cut dl = Some c -> dt_fdata dl = Some p -> cell q 0 (SDict e0) ->
  let t1 := closing_trailer x0 (Z.of_nat (length q)) t0 in
  commit d = Ok (mk_doc (lx ++ [q; SDict (revision_entry d x0) :: skipn 1 q]) (lset (lset cache 0 (PDict t1)) 0 (PDict (opening_trailer e0 t1)))
                        (dx ++ [dl; mk_datum None None (Some p)])).
Proof.
  intros EC NE EI <- C0 X X1 ED CU FD Q0 t1. unfold commit. rewrite EC. cbn [bind]. destruct chg as [|c0 chg0]; [congruence|].
  unfold last_row. rewrite EI, pyget_last. cbn [bind]. rewrite (proj2 (pyget_cell _ 0 _ ltac:(lia)) C0). cbn [bind]. rewrite X. cbn [bind].
  replace (if truthy x0 then commit_row q (Z.of_nat (length (lx ++ [q]))) x0 else Ok (q, x0)) with (@Ok (list slot * option Z) (q, x0)).
  2:{ destruct x0 as [z|]; [|reflexivity]. unfold commit_row. destruct (truthy (Some z)); auto. destruct (z =? -1) eqn:Q; auto. exfalso. apply X1. f_equal. lia. }
  cbn [bind]. fold (closing_trailer x0 (Z.of_nat (length q)) t0). fold t1.
  pose proof (cell_range _ _ _ C0) as R0. rewrite pyset_ok by lia. change (Z.to_nat 0) with 0%nat. cbn [bind]. rewrite ED, pyget_last. cbn [bind]. rewrite CU. cbn [bind]. rewrite FD. cbn [of_opt bind].
  rewrite !pyset_last. cbn [bind]. rewrite (proj2 (pyget_cell q 0 _ ltac:(lia)) Q0). cbn [bind].
  assert (C1 : cell (lset (d_cache d) 0 (PDict t1)) 0 (PDict t1)) by (change 0%nat with (Z.to_nat 0); apply cell_lset; [lia|auto]).
  rewrite (proj2 (pyget_cell _ 0 _ ltac:(lia)) C1). cbn [bind dict_of]. rewrite pyset_ok by (rewrite lset_length; lia). cbn [bind].
  change (Z.to_nat 0) with 0%nat. unfold opening_trailer. rewrite <- !app_assoc. cbn [app]. unfold revision_entry. rewrite EI. reflexivity.
Qed.

(* the document read from the file *)
Record loaded (d : doc) (F : bytes) (cs : list (list ient)) (x : Z) (t : dict) (nb : Z) (q : list slot) (e0 : ient) : Prop := mk_loaded {
  ld_index : exists l re, d_index d = l ++ [q; SDict re :: skipn 1 q] /\ S (length l) = length cs /\
    n_env re = None /\ n_del re = false /\ n_xsn re = (if truthy (oldest_xsn cs) then Some (-1) else None) /\ n_xt re = None /\
    Forall (fun row => length row = length q) l;
  ld_len : 0 <= nb /\ length q = Z.to_nat (nb + 1) /\ length (d_cache d) = length q;
  ld_nb : (forall s e, In s cs -> In e (tl s) -> n_num e <= nb) /\ (nb = 0 \/ exists s e, In s cs /\ In e (tl s) /\ n_num e = nb);
  ld_cells : forall n, 1 <= n <= nb -> exists c, cell q n c /\ matches (history n 0 [] (rev cs)) c;
  ld_head : cell q 0 (SDict e0) /\ prev_pos e0 = PInt x /\ n_env e0 = None /\ n_del e0 = false /\ exists h es older, cs = (h :: es) :: older /\ n_xsn e0 = n_xsn h;
  ld_trailer : cell (d_cache d) 0 (PDict (opening_trailer e0 (closing_trailer (oldest_xsn cs) (Z.of_nat (length q)) t)));
  ld_cache : forall n o, 0 < n -> cell (d_cache d) n o -> o = PNone;
  ld_data : exists data, d_data d = data ++ [mk_datum (Some (blen F)) None (Some (PvSingle F)); mk_datum None None (Some (PvSingle F))] /\
    S (length data) = length cs /\ Forall is_cut data /\ Forall (fun y => dt_fdata y = Some (PvSingle F)) data;
  ld_xsn : first_xsn d = Ok (oldest_xsn cs)
}.

Lemma cut_last F b l : F = b ++ B "%%EOF" ++ l -> Forall eol l -> eof_cut (blen b) (PvSingle F) = Ok (blen F).
Proof.
  intros E EL. unfold eof_cut. rewrite single_length. cbn [bind].
  assert (LF : blen F = Z.of_nat (length b) + 5 + Z.of_nat (length l)). { rewrite E. unfold blen. rewrite !app_length. change (length (B "%%EOF")) with 5%nat. lia. }
  change (blen b) with (Z.of_nat (length b)).
  destruct (single_read F (Z.of_nat (length b)) (blen F - Z.of_nat (length b))) as (n & R & N); [intros ->; cbn in LF; lia|lia|lia|].
  replace (Z.of_nat (length b) <? 0) with false in * by lia. rewrite Nat2Z.id in *. rewrite R. cbn [bind]. f_equal.
  rewrite file_bytes_length in N by (unfold blen in *; lia). replace (_ =? -1) with false in N by lia.
  replace (Z.to_nat _) with (length F) by (unfold blen in *; lia).
  replace (length b + 5)%nat with (length (b ++ B "%%EOF")) by (rewrite app_length; reflexivity).
  replace F with ((b ++ B "%%EOF") ++ l ++ []) at 2 3 by (rewrite <- app_assoc, app_nil_r; symmetry; exact E).
  rewrite skip_eol_run; auto; [rewrite app_length; change (length (B "%%EOF")) with 5%nat; unfold blen in *; lia|unfold blen in LF; lia].
Qed.

(* the newest definition of a number *)
Lemma apos_eqb_true a b : apos_eqb a b = true -> a = b.
Proof. destruct a, b; cbn; intro H; try discriminate; f_equal; lia. Qed.
Lemma top_pos k a l : forall h, (l <> [] \/ exists v e h', h = (v, e) :: h' /\ n_pos e = Some a) -> Forall (fun e => n_pos e = Some a) l ->
  exists v e h', fold_left (remember k) l h = (v, e) :: h' /\ n_pos e = Some a.
Proof.
  induction l as [|e l IH]; intros h H FA; cbn [fold_left]; [destruct H as [H|H]; [congruence|auto]|]. inversion FA; subst. apply IH; auto. right.
  unfold remember. destruct h as [|[v e0] h]; [exists k, e, []; auto|]. destruct (n_pos e0) as [b|] eqn:P; [|exists k, e, ((v, e0) :: h); auto]. rewrite H2.
  destruct (apos_eqb b a) eqn:Q; [apply apos_eqb_true in Q; subst; exists v, e0, h|exists k, e, ((v, e0) :: h)]; auto.
Qed.
Lemma top_fresh k l : forall h, (exists e, In e l /\ forall v e0, In (v, e0) h -> v = k \/ n_pos e0 <> n_pos e) \/ (exists e h', h = (k, e) :: h') ->
  exists e h', fold_left (remember k) l h = (k, e) :: h'.
Proof.
  induction l as [|a l IH]; intros h H; cbn [fold_left].
  - destruct H as [(e & [] & _)|H]; auto.
  - apply IH. assert (R : (exists e h', remember k h a = (k, e) :: h') \/ (remember k h a = h /\ exists v e0 h', h = (v, e0) :: h' /\ n_pos e0 = n_pos a)).
    { unfold remember. destruct h as [|[v e0] h]; [left; eauto|]. destruct (n_pos e0) as [b|] eqn:P; [|left; eauto]. destruct (n_pos a) as [c|] eqn:P'; [|left; eauto].
      destruct (apos_eqb b c) eqn:Q; [|left; eauto]. apply apos_eqb_true in Q. subst. right. split; auto. exists v, e0, h. auto. }
    destruct R as [R|(R & v & e0 & h' & -> & Q)]; [right; auto|]. rewrite R. destruct H as [(e & [->|I] & N)|H]; [|left; eauto|right; auto].
    destruct (N v e0 (or_introl eq_refl)) as [->|C]; [right; eauto|congruence].
Qed.

Lemma load_any f F cs x t : readable f F cs x t -> oldest_xsn cs <> Some (-1) ->
  exists d nb q e0, loads f F = Ok d /\ loaded d F cs x t nb q e0.
Proof.
  intros [RD SC (X0 & h & es & older & pt & ECS & SP & HP & TR) (WT & XT) (b & l & c' & older' & EF & EL & EC' & EP) (h' & es' & old' & en & EN1 & EN2 & EN3 & EN4 & EN5)] XN.
  assert (TN : NoDup (map fst t)) by (apply wfv_nodup; auto).
  assert (c' = h :: es /\ older' = older) as [-> ->] by (split; congruence). clear EC'. assert (h' = h /\ es' = es /\ old' = older) as (-> & -> & ->) by (repeat split; congruence). clear EN1.
  set (p := PvSingle F). assert (NE : cs <> []) by (rewrite ECS; discriminate).
  destruct (index_any F cs SC NE) as (nxt & nb & idx & FS & BI & LI & NB0 & NBU & NBL & ROWS).
  destruct idx as [|lrow li _] using rev_ind; [rewrite ECS in LI; discriminate|]. rewrite app_length in LI. cbn [length] in LI.
  assert (RC : rev cs = rev older ++ [h :: es]) by (rewrite ECS; reflexivity). assert (LO : length older = length li) by (rewrite ECS in LI; cbn [length] in LI; lia).
  assert (RL := ROWS (length li) lrow (h :: es)). rewrite nth_error_app2, Nat.sub_diag in RL by lia. rewrite RC, nth_error_app2 in RL by (rewrite rev_length; lia).
  replace (length li - length (rev older))%nat with 0%nat in RL by (rewrite rev_length; lia). specialize (RL eq_refl eq_refl). rewrite <- RC in RL.
  rewrite firstn_all2 in RL by (rewrite rev_length; lia). destruct RL as (LEN & (h1 & es1 & pp & x0 & Q1 & HP' & PX & C0) & CE). injection Q1 as <- <-.
  assert (pp = pt) by congruence. subst pp. set (e0 := with_next (Some x0) _) in C0.
  assert (ICS : In (h :: es) cs) by (rewrite ECS; left; auto).
  destruct (sc_head _ _ SC _ ICS) as (h2 & es2 & Q2 & HN & HEV). injection Q2 as <- <-.
  destruct (sc_entry _ _ SC _ h ICS (or_introl eq_refl)) as (_ & HD & [(p2 & (_ & P2) & PB)|(env & off & Q & _)]); [|congruence]. assert (p2 = pt) by congruence. subst p2.
  (* markers of the rows *)
  assert (EOFR : forall k row sec, nth_error (li ++ [lrow]) k = Some row -> nth_error (rev cs) k = Some sec -> exists ep e, pyget row (-1) = Ok (SDict e) /\ n_pos e = Some (AInt ep) /\ 0 <= ep < blen F).
  { intros k row sec K S'. destruct (ROWS k row sec K S') as (_ & _ & R). destruct (R (-1) (or_introl eq_refl)) as (c & PC & MC).
    destruct (sc_eof _ _ SC sec) as (ee & IE & NE1); [apply in_rev; eapply nth_error_In; eauto|].
    destruct (history (-1) 0 [] (firstn (S k) (rev cs))) as [|[v e] hh] eqn:HE.
    { exfalso. revert HE. eapply (history_some (-1) _ 0 [] k sec ee); auto. assert (KL : (k < length (rev cs))%nat) by (apply nth_error_Some; congruence).
      rewrite <- (firstn_skipn (S k) (rev cs)), nth_error_app1 in S' by (rewrite firstn_length; lia). exact S'. }
    destruct MC as (e' & -> & KI). assert (IH : In (v, e) (history (-1) 0 [] (firstn (S k) (rev cs)))) by (rewrite HE; left; auto).
    apply history_in in IH as [[]|(j & s & J & _ & I & N)]. assert (IS : In s cs). { apply in_rev. apply nth_error_In in J. rewrite <- (firstn_skipn (S k) (rev cs)). apply in_or_app. auto. }
    destruct (sc_numbers _ _ SC s e IS I) as [[_ EV]|[Q _]]; [|lia]. assert (IT : In e s) by (destruct s; [destruct I|right; auto]).
    destruct (sc_entry _ _ SC s e IS IT) as (_ & _ & [(z & D & ZB)|(env & off & Q & _)]); [|congruence]. destruct KI as (_ & _ & _ & _ & _ & _ & _ & KP). destruct (KP z D) as (P' & _). exists z, e'. auto. }
  assert (NTH : forall k row, nth_error (li ++ [lrow]) k = Some row -> exists sec, nth_error (rev cs) k = Some sec).
  { intros k row K. assert ((k < length (li ++ [lrow]))%nat) by (apply nth_error_Some; congruence). rewrite app_length in H. cbn [length] in H. destruct (nth_error (rev cs) k) eqn:E; [eauto|]. apply nth_error_None in E. rewrite rev_length in E. lia. }
  destruct (eof_all F li) as (data & ED & LD).
  { intros row I. apply In_nth_error in I as [k K]. assert (K' : nth_error (li ++ [lrow]) k = Some row) by (rewrite nth_error_app1; auto; apply nth_error_Some; congruence). destruct (NTH _ _ K') as [sec S']. eapply EOFR; eauto. }
  destruct (eof_data_cuts _ _ _ ED) as (DC & _ & DFD).
  assert (exists ee, pyget lrow (-1) = Ok (SDict ee) /\ n_pos ee = Some (AInt (blen b))) as (ee & PG & PE).
  { destruct (CE (-1) (or_introl eq_refl)) as (c & PC & MC). rewrite RC, history_snoc in MC. unfold remember_all in MC. cbn [tl] in MC.
    destruct (sc_eof _ _ SC _ ICS) as (e1 & IE & NE1). cbn [tl] in IE.
    destruct (top_pos (0 + Z.of_nat (length (rev older))) (AInt (blen b)) (filter (fun e => n_num e =? -1) es) (history (-1) 0 [] (rev older))) as (v & e2 & hh & HH & P2').
    { left. intro Q. assert (J : In e1 (filter (fun e => n_num e =? -1) es)) by (apply filter_In; split; [auto|lia]). rewrite Q in J. destruct J. }
    { apply Forall_forall. intros a A. apply filter_In in A as [A1 A2]. apply EP; [auto|lia]. }
    rewrite HH in MC. destruct MC as (e3 & -> & KI). assert (IH : In (v, e2) (history (-1) 0 [] (rev cs))) by (rewrite RC, history_snoc; unfold remember_all; cbn [tl]; rewrite HH; left; auto).
    apply history_in in IH as [[]|(j & s & J & _ & I & N)]. assert (IS : In s cs) by (apply in_rev; apply nth_error_In in J; auto).
    destruct (sc_numbers _ _ SC s e2 IS I) as [[_ EV]|[Q _]]; [|lia]. destruct KI as (_ & _ & _ & _ & _ & _ & _ & KP). destruct (KP (blen b) (conj EV P2')) as (P' & _). exists e3. auto. }
  apply pyget_last_inv in PG as [q EQ]. assert (LQ : length q = Z.to_nat (nb + 1)) by (rewrite EQ, app_length in LEN; cbn [length] in LEN; lia).
  assert (ED' : eof_data p (li ++ [lrow]) = Ok (data ++ [mk_datum (Some (blen F)) None (Some p)])).
  { unfold p. rewrite eof_data_app, ED. cbn [bind eof_data]. rewrite EQ, pyget_last. cbn [bind as_dict]. unfold pos_int. rewrite PE. cbn [bind]. rewrite (cut_last F b l EF EL). reflexivity. }
  assert (RLQ : removelast lrow = q) by (rewrite EQ; apply removelast_last).
  assert (CQ : forall n y, n <= nb -> cell lrow n y -> cell q n y) by (intros n y LT C; rewrite EQ in C; eapply cell_removelast; eauto; lia).
  assert (CQ0 : cell q 0 (SDict e0)) by (apply CQ; [lia|auto]).
  assert (CELL : forall n, 1 <= n <= nb -> exists c, cell q n c /\ matches (history n 0 [] (rev cs)) c).
  { intros n R. destruct (CE n (or_intror R)) as (c & PC & MC). exists c. split; auto. apply CQ; [lia|]. apply pyget_cell; [lia|auto]. }
  (* the trailer *)
  assert (DU : dupdate [] t = t) by (rewrite dupdate_fresh; auto).
  set (cache := lset (repeat PNone (length q)) 0 (PDict t)).
  assert (RN : cell (repeat PNone (length q)) 0 PNone) by (split; [lia|]; destruct (length q) eqn:QQ; [lia|reflexivity]).
  assert (TA : trailer_at p e0 = Ok t). { unfold p. rewrite (trailer_single F e0 pt x0); auto. }
  assert (BC : build_cache p (map (@removelast slot) (li ++ [lrow])) = Ok cache).
  { unfold build_cache. rewrite map_app. cbn [map]. rewrite pyget_last. cbn [bind]. rewrite RLQ. unfold memoize. rewrite (proj2 (pyget_cell q 0 _ ltac:(lia)) CQ0). cbn [bind deleted_in]. replace (n_del e0) with false by (symmetry; exact HD). cbn [bind].
    rewrite (proj2 (pyget_cell _ 0 _ ltac:(lia)) RN). cbn [bind is_none negb]. change (0 =? 0) with true. cbn [trailers as_dict bind]. rewrite TA. cbn [bind]. rewrite DU.
    rewrite pyset_ok by (rewrite repeat_length; lia). reflexivity. }
  set (d0 := mk_doc (map (@removelast slot) (li ++ [lrow])) cache (data ++ [mk_datum (Some (blen F)) None (Some p)])).
  assert (DI : doc_initial f p = Ok d0). { unfold doc_initial, p, build_xref_sequence. rewrite RD. cbn [bind]. rewrite single_length. cbn [bind]. rewrite FS. cbn [bind]. rewrite BI. cbn [bind]. fold p. rewrite ED'. cbn [bind]. rewrite BC. reflexivity. }
  assert (I0 : d_index d0 = map (@removelast slot) li ++ [q]) by (cbn [d0 d_index]; rewrite map_app; cbn [map]; now rewrite RLQ).
  assert (CC0 : cell cache 0 (PDict t)) by (unfold cache; change 0%nat with (Z.to_nat 0); apply cell_lset; [rewrite repeat_length; lia|auto]).
  assert (CCN : forall n o, 0 < n -> cell cache n o -> o = PNone).
  { intros n o P C. unfold cache in C. change 0%nat with (Z.to_nat 0) in C. rewrite cell_lset in C by (rewrite repeat_length; lia). destruct C as [[Q _]|[_ [_ C]]]; [lia|]. apply nth_error_In, repeat_spec in C. auto. }
  assert (LC : length cache = length q) by (unfold cache; rewrite lset_length, repeat_length; auto).
  assert (RT : forall k row, nth_error li k = Some row -> exists r y sec, row = r ++ [y] /\ length r = length q /\ nth_error (rev cs) k = Some sec /\ head_cell k sec row /\
    forall n, 1 <= n <= nb -> exists c, cell r n c /\ matches (history n 0 [] (firstn (S k) (rev cs))) c).
  { intros k row K. assert (K' : nth_error (li ++ [lrow]) k = Some row) by (rewrite nth_error_app1; auto; apply nth_error_Some; congruence). destruct (NTH _ _ K') as [sec S'].
    destruct (ROWS k row sec K' S') as (LEN' & HC & CN). destruct row as [|y r _] using rev_ind; [cbn in LEN'; lia|]. rewrite app_length in LEN'. cbn [length] in LEN'.
    exists r, y, sec. split; auto. split; [lia|]. split; auto. split; auto. intros n R. destruct (CN n (or_intror R)) as (c & PC & MC). exists c. split; auto. apply pyget_cell in PC; [|lia]. eapply cell_removelast; eauto. lia. }
  assert (HX : forall k sec row, head_cell k sec row -> exists t0 es0 e1, sec = t0 :: es0 /\ cell row 0 (SDict e1) /\ n_xsn e1 = n_xsn t0).
  { intros k sec row (t0 & es0 & p0 & y0 & -> & _ & _ & C). exists t0, es0. eexists. split; auto. split; [exact C|reflexivity]. }
  assert (XF : first_xsn d0 = Ok (oldest_xsn cs)).
  { unfold first_xsn. rewrite I0. destruct li as [|row li'].
    - assert (older = []) by (destruct older; [auto|discriminate]). subst older. change (pyget (map (@removelast slot) [] ++ [q]) 0) with (@Ok (list slot) q). cbn [bind]. rewrite (proj2 (pyget_cell q 0 _ ltac:(lia)) CQ0). cbn [bind]. unfold oldest_xsn. rewrite ECS. reflexivity.
    - destruct (RT 0%nat row eq_refl) as (r & y & sec & ER & LRr & S0 & HC & _). destruct (HX _ _ _ HC) as (t0 & es0 & e1 & -> & C1 & X1).
      cbn [map app]. change (pyget (removelast row :: map (@removelast slot) li' ++ [q]) 0) with (@Ok (list slot) (removelast row)). cbn [bind]. rewrite ER, removelast_last. rewrite ER in C1.
      apply cell_removelast in C1; [|lia]. rewrite (proj2 (pyget_cell r 0 _ ltac:(lia)) C1). cbn [bind]. rewrite X1. unfold oldest_xsn. destruct (rev cs) as [|s0 rc]; [discriminate|]. cbn in S0. injection S0 as ->. reflexivity. }
  (* something changed *)
  assert (MT : forall r m, (forall n, 1 <= n <= nb -> exists c, cell r n c /\ matches (history n 0 [] m) c) -> length r = length q -> tidy r).
  { intros r m H L n y P C ll ->. pose proof (cell_range _ _ _ C) as R. destruct (H n ltac:(lia)) as (c & CC & MC). pose proof (cell_fun _ _ _ _ C CC) as <-. destruct (history n 0 [] m) as [|[v e] hh]; [discriminate|]. destruct MC as (e' & Q & _). discriminate. }
  assert (TQ : tidy q) by (eapply MT; eauto).
  assert (S0 : exists s0, cell q 0 s0 /\ s0 <> SNone) by (exists (SDict e0); split; [auto|discriminate]).
  assert (NX : ~ xref_object q (n_num en)). { intros (e & C & Q). pose proof (cell_fun _ _ _ _ C CQ0) as Y. injection Y as ->. apply EN4. rewrite <- Q. reflexivity. }
  assert (RNE : 1 <= n_num en <= nb) by (split; [lia|]; eapply NBU; [exact ICS|exact EN2]).
  destruct (CELL _ RNE) as (cn & CN & MN).
  assert (TOP : exists e1 hh, history (n_num en) 0 [] (rev cs) = (Z.of_nat (length older), e1) :: hh).
  { rewrite RC, history_snoc. unfold remember_all. cbn [tl]. rewrite rev_length. change (0 + Z.of_nat (length older)) with (Z.of_nat (length older)). apply top_fresh. left. exists en. split; [apply filter_In; split; [auto|lia]|].
    intros v e2 I. apply history_in in I as [[]|(j & s & J & _ & I & N)]. right. eapply EN5; eauto. apply in_rev. eapply nth_error_In; eauto. }
  destruct TOP as (e1 & hh & TOP). rewrite TOP in MN. destruct MN as (ce & -> & KI).
  assert (CHG : exists chg, changes d0 = Ok chg /\ chg <> []).
  { destruct li as [|prow li' _] using rev_ind.
    - destruct (changes_single d0 q I0 TQ S0) as (chg & E & _ & IN). exists chg. split; auto. intros ->.
      assert (IC : @In change ((n_gen ce, n_num en), Add) []); [|destruct IC]. apply IN. split; auto. split; [lia|]. exists ce. split; [apply at_num_cell; auto; lia|]. auto.
    - destruct (RT (length li') prow) as (r & y & sec & ER & LRr & SE & HC & CR); [rewrite nth_error_app2, Nat.sub_diag by lia; auto|].
      assert (TP : tidy r) by (eapply MT; eauto). rewrite map_app in I0. cbn [map] in I0. rewrite ER, removelast_last in I0. rewrite <- app_assoc in I0. cbn [app] in I0.
      destruct (changes_spec d0 _ r q I0 TQ TP S0) as (chg & E & _ & IN). exists chg. split; auto. intros ->.
      destruct (CR _ RNE) as (c & CC & MC). assert (IC : exists a, @In change ((n_gen ce, n_num en), a) []); [|destruct IC as [? []]].
      assert (NEQ : c <> SDict ce).
      { intros ->. destruct (history (n_num en) 0 [] (firstn (S (length li')) (rev cs))) as [|[v2 e2] h2] eqn:HE; [discriminate|]. destruct MC as (e2' & Q & KI2). injection Q as <-.
        assert (IH : In (v2, e2) (history (n_num en) 0 [] (firstn (S (length li')) (rev cs)))) by (rewrite HE; left; auto). apply history_in in IH as [[]|(j & s & J & -> & _)].
        assert (JM : (j < length (firstn (S (length li')) (rev cs)))%nat) by (apply nth_error_Some; congruence). rewrite firstn_length, rev_length in JM. rewrite app_length in LO. cbn [length] in LO.
        destruct KI as (_ & _ & _ & _ & V1 & _). destruct KI2 as (_ & _ & _ & _ & V2 & _). rewrite V1 in V2. injection V2 as V2. lia. }
      assert (exists a, tagged c (SDict ce) a) as [a TG].
      { destruct KI as (_ & _ & _ & KD & _). assert (LV : live (SDict ce) = true). { assert (IH : In (Z.of_nat (length older), e1) (history (n_num en) 0 [] (rev cs))) by (rewrite TOP; left; auto).
          apply history_in in IH as [[]|(j & s & J & _ & I & N)]. assert (IS : In s cs) by (apply in_rev; eapply nth_error_In; eauto). assert (IT : In e1 s) by (destruct s; [destruct I|right; auto]). destruct (sc_entry _ _ SC s e1 IS IT) as (_ & D1 & _). cbn [live]. rewrite KD, D1. reflexivity. }
        destruct c; [exists Add; constructor; auto|exists Upd; constructor 3; [discriminate|auto]|exists Upd; constructor 3; [discriminate|auto]]. }
      exists a. apply IN. split; [lia|]. exists ce. rewrite (at_num_cell q (n_num en) _ ltac:(lia) CN), (at_num_cell r (n_num en) _ ltac:(lia) CC). auto. }
  destruct CHG as (chg & EC & NC).
  pose proof (commit_loaded d0 chg _ q cache t data _ (blen F) p e0 _ EC NC I0 eq_refl CC0 XF XN eq_refl eq_refl eq_refl CQ0) as CM. cbv zeta in CM.
  eexists. exists nb, q, e0. split; [unfold loads, doc_constructor; fold p; rewrite DI; cbn [bind]; exact CM|].
  constructor; cbn [d_index d_cache d_data].
  - eexists _, _. split; [reflexivity|]. split; [rewrite map_length; lia|]. split; [reflexivity|]. split; [reflexivity|]. split; [reflexivity|]. split; [reflexivity|].
    apply Forall_forall. intros r I. apply in_map_iff in I as (row & <- & I). apply In_nth_error in I as [k K]. destruct (RT k row K) as (r & y & sec & -> & L & _). rewrite removelast_last. auto.
  - rewrite !lset_length. auto.
  - auto.
  - auto.
  - split; auto. split; [|split; [exact HEV|split; [exact HD|exists h, es, older; auto]]]. unfold prev_pos. cbn [section_pos] in SP. change (n_xt e0) with (n_xt h). change (n_xs e0) with (n_xs h).
    destruct (n_xt h) as [z|]; [injection SP as ->; replace (x =? 0) with false by lia; reflexivity|rewrite SP; reflexivity].
  - change 0%nat with (Z.to_nat 0). apply cell_lset; [rewrite lset_length; lia|auto].
  - intros n o P C. apply (CCN n o P). change 0%nat with (Z.to_nat 0) in C. rewrite !cell_lset in C by (rewrite ?lset_length; lia). destruct C as [[Q _]|[_ [[Q _]|[_ Q]]]]; [lia|lia|auto].
  - exists data. split; [auto|]. split; [lia|]. auto.
  - unfold first_xsn. cbn [d_index]. unfold first_xsn in XF. rewrite I0 in XF. destruct (map (@removelast slot) li) as [|r0 rr]; exact XF.
Qed.

(* ---------- documents under edition ---------- *)
Record edition (l : list (list slot)) (q : list slot) (re : ient) (t : dict) (data : list datum) (p : prov) (x0 : option Z) (d : doc) (row : list slot) : Prop := mk_edition {
  ed_index : d_index d = l ++ [q; row];
  ed_len : length (d_cache d) = length row /\ (length q <= length row)%nat;
  ed_head : cell row 0 (SDict re);
  ed_data : d_data d = data;
  ed_tr : cell (d_cache d) 0 (PDict t);
  ed_cells : forall n s, 0 < n -> cell row n s -> exists o, cell (d_cache d) n o /\
    ((cell q n s /\ (o = PNone \/ ((exists e, s = SDict e) /\ disk q p n = Ok o))) \/
     exists e, s = SDict e /\ n_pos e = None /\ n_gen e = 0 /\ n_env e = None /\ n_del e = false /\ n_over e <> None /\ savable o);
  ed_env : forall k ek env, cell row k (SDict ek) -> n_env ek = Some env -> 0 < env /\ cell q k (SDict ek) /\ exists s, cell q env s /\ cell row env s;
  ed_coh : coherent d;
  ed_xsn : first_xsn d = Ok x0;
  ed_kept : forall k s, x0 = Some k -> 0 < k -> cell q k s -> cell row k s
}.

Definition calm (q : list slot) : Prop := forall n s, 0 < n -> cell q n s -> s = SNone \/ exists e, s = SDict e /\ n_del e = false /\ n_pos e <> None.

Lemma disk_q l q re t data p x0 d row n s : edition l q re t data p x0 d row -> 0 < n -> cell row n s -> cell q n s -> disk row p n = disk q p n.
Proof.
  intros E N C1 C2. unfold disk. rewrite (proj2 (pyget_cell row n _ ltac:(lia)) C1), (proj2 (pyget_cell q n _ ltac:(lia)) C2). cbn [bind]. replace (n =? 0) with false by lia.
  destruct s as [|e|]; auto. destruct (n_env e) as [c|] eqn:EV; auto. destruct (ed_env _ _ _ _ _ _ _ _ _ E n e c C1 EV) as (C0 & _ & s & A1 & A2).
  rewrite (proj2 (pyget_cell row c _ ltac:(lia)) A2), (proj2 (pyget_cell q c _ ltac:(lia)) A1). reflexivity.
Qed.

Lemma edition_open l q re t data p x0 d row : edition l q re t data p x0 d row -> open_row d row.
Proof. intros E. exists (l ++ [q]). rewrite (ed_index _ _ _ _ _ _ _ _ _ E), <- app_assoc. reflexivity. Qed.

Lemma edition_step l q re t data p x0 d0 d : (exists dx y, data = dx ++ [y] /\ dt_fdata y = Some p) -> calm q -> n_env re = None -> revised d0 d ->
  (exists row, edition l q re t data p x0 d0 row) -> exists row, edition l q re t data p x0 d row.
Proof.
  intros DP CQ RE R I. induction R as [|d g n v d1 R IH N G|d n o row' e d1 R IH N XN SV OR CE GE EV NC U|d o d1 r R IH SV A]; auto.
  - destruct IH as (row & E). assert (O := edition_open _ _ _ _ _ _ _ _ _ E). assert (P : provider d p) by (destruct DP as (dx & y & -> & Q); exists dx, y; split; [apply (ed_data _ _ _ _ _ _ _ _ _ E)|auto]).
    destruct (get_object_step d g n v d1 N (ed_coh _ _ _ _ _ _ _ _ _ E) G) as (row2 & p2 & O2 & P2 & E1 & [FL FC] & _).
    assert (row2 = row) by (apply (open_fun d); auto). assert (p2 = p) by (apply (provider_fun d); auto). subst row2 p2.
    pose proof (coherent_filled d row p (d_cache d1) O P (ed_coh _ _ _ _ _ _ _ _ _ E) (conj FL FC)) as CO1. rewrite <- E1 in CO1.
    exists row. pose proof E as E'. destruct E as [E2 E3 E4 E5 E6 E7 E8 E9 E10 E11]. rewrite E1. constructor; cbn [with_cache d_index d_cache d_data]; auto.
    + destruct E3. split; congruence.
    + destruct (pyget_range (d_cache d1) 0) as [y Y]; [pose proof (cell_range _ _ _ E6); lia|]. destruct (FC 0 y Y) as (z & Z1 & [->|(-> & _)]); [|pose proof (cell_fun _ _ _ _ Z1 E6); discriminate].
      rewrite (cell_fun _ _ _ _ E6 Z1). exact Y.
    + intros k s K C. destruct (E7 k s K C) as (o & CO & D). destruct (pyget_range (d_cache d1) k) as [y Y]; [pose proof (cell_range _ _ _ CO); lia|].
      destruct (FC k y Y) as (z & Z1 & W). pose proof (cell_fun _ _ _ _ CO Z1) as <-. exists y. split; auto. destruct D as [[D1 D2]|D].
      * left. split; auto. destruct W as [->|(-> & (s' & L1 & L2) & W)]; auto. right. pose proof (cell_fun _ _ _ _ C L1) as <-.
        split; [|rewrite <- W; symmetry; eapply disk_q; eauto]. destruct (CQ k s K D1) as [->|(e & -> & _)]; [|eauto]. cbn in L2. discriminate.
      * right. destruct W as [->|(-> & _)]; auto. destruct D as (e & _ & _ & _ & _ & _ & _ & Q). destruct (savable_some _ Q eq_refl).
    + rewrite <- E1. auto.
  - destruct IH as (row & E). assert (O := edition_open _ _ _ _ _ _ _ _ _ E). assert (row' = row) by (apply (open_fun d); auto). subst row'.
    assert (CO1 : coherent d1). { apply (update_coherent d n o d1 N U (ed_coh _ _ _ _ _ _ _ _ _ E)); [intros r e' O' C'|intros r k e' O' C' _]; (assert (r = row) by (apply (open_fun d); auto); subst r); [pose proof (cell_fun _ _ _ _ C' CE); congruence|eapply NC; eauto]. }
    destruct (update_inv d n o d1 ltac:(lia) U) as (lx & row2 & old & ov & E1 & C1 & OV & RC & ED). destruct E as [E2 E3 E4 E5 E6 E7 E8 E9 E10 E11].
    assert (lx = l ++ [q] /\ row2 = row) as [-> ->]. { rewrite E2 in E1. change (l ++ [q; row]) with (l ++ [q] ++ [row]) in E1. rewrite app_assoc in E1. apply app_inj_tail in E1 as [-> ->]. auto. }
    pose proof (cell_fun _ _ _ _ C1 CE) as Y. injection Y as ->. pose proof (cell_range _ _ _ CE) as RR.
    assert (IO : is_none o = false) by (pose proof (savable_some o SV); destruct o; auto; congruence). rewrite IO in ED. set (e1 := with_del _ _) in ED.
    exists (lset row (Z.to_nat n) (SDict e1)). subst d1. constructor; cbn [d_index d_cache d_data]; auto.
    + rewrite <- app_assoc. reflexivity.
    + rewrite !lset_length. auto.
    + apply cell_lset; [lia|]. right. split; [lia|auto].
    + apply cell_lset; [lia|]. right. split; [lia|auto].
    + intros k s K C. rewrite cell_lset in C by lia. destruct C as [[-> ->]|[NK C]].
      * exists o. split; [apply cell_lset; [lia|auto]|]. right. exists e1. split; auto. split; [reflexivity|]. split; [exact GE|]. split; [reflexivity|]. split; [reflexivity|]. split; [discriminate|auto].
      * destruct (E7 k s K C) as (o' & CO & D). exists o'. split; [apply cell_lset; [lia|auto]|auto].
    + intros k ek env C Q. rewrite cell_lset in C by lia. destruct C as [[-> Q2]|[NK C]]; [injection Q2 as ->; discriminate Q|].
      destruct (E8 k ek env C Q) as (A1 & A2 & s & A3 & A4). split; auto. split; auto. exists s. split; auto. apply cell_lset; [lia|]. right. split; auto. intros ->. eapply NC; eauto.
    + rewrite <- E10. apply first_xsn_same. exists (l ++ [q]), row, (lset row (Z.to_nat n) (SDict e1)). cbn [d_index]. repeat (split; [auto|]). apply cells_pyget; [lia|]. intro x. rewrite cell_lset by lia.
      split; [intros [[Q _]|[_ Q]]; [lia|auto]|intro; right; split; [lia|auto]].
    + intros k s K1 K2 C. apply cell_lset; [lia|]. right. split; [|eauto]. intros ->. apply XN. rewrite E10, K1. reflexivity.
  - destruct IH as (row & E). assert (O := edition_open _ _ _ _ _ _ _ _ _ E). assert (P : provider d p) by (destruct DP as (dx & y & -> & Q); exists dx, y; split; [apply (ed_data _ _ _ _ _ _ _ _ _ E)|auto]).
    assert (CO1 : coherent d1). { destruct (add_fresh d o d1 r A) as (? & ? & _ & _ & _ & _ & Q & _); eauto; [|apply (ed_coh _ _ _ _ _ _ _ _ _ E)|apply savable_some; auto]. intros r' O'. assert (r' = row) by (apply (open_fun d); auto). subst r'. apply (ed_len _ _ _ _ _ _ _ _ _ E). }
    destruct (add_inv d o d1 r A) as (lx & row2 & E1 & RC & -> & ED). destruct E as [E2 [E3 E3'] E4 E5 E6 E7 E8 E9 E10 E11].
    assert (lx = l ++ [q] /\ row2 = row) as [-> ->]. { rewrite E2 in E1. change (l ++ [q; row]) with (l ++ [q] ++ [row]) in E1. rewrite app_assoc in E1. apply app_inj_tail in E1 as [-> ->]. auto. }
    set (e1 := with_dver _ _) in ED.
    assert (CC : forall k x, cell (lset (d_cache d ++ [PNone]) (length row) o) k x <-> cell (d_cache d) k x \/ (k = Z.of_nat (length row) /\ x = o)).
    { intros k x. replace (length row) with (Z.to_nat (Z.of_nat (length row))) at 1 by lia. rewrite cell_lset by (rewrite app_length; cbn [length]; lia). rewrite cell_snoc. split.
      - intros [[-> ->]|[NK [C|[-> ->]]]]; auto. rewrite E3 in NK. congruence.
      - intros [C|[-> ->]]; auto. right. split; auto. intros ->. apply cell_range in C. lia. }
    exists (row ++ [SDict e1]). subst d1. constructor; cbn [d_index d_cache d_data]; auto.
    + rewrite <- app_assoc. reflexivity.
    + rewrite lset_length, !app_length. cbn [length]. lia.
    + apply cell_snoc. auto.
    + apply CC. auto.
    + intros k s K C. rewrite cell_snoc in C. destruct C as [C|[-> ->]].
      * destruct (E7 k s K C) as (o' & CO & D). exists o'. split; [apply CC; auto|auto].
      * exists o. split; [apply CC; auto|]. right. exists e1. repeat (split; [first [reflexivity|discriminate]|]). auto.
    + intros k ek env C Q. rewrite cell_snoc in C. destruct C as [C|[-> Q2]]; [|injection Q2 as ->; discriminate Q].
      destruct (E8 k ek env C Q) as (A1 & A2 & s & A3 & A4). split; auto. split; auto. exists s. split; auto. apply cell_snoc. auto.
    + rewrite <- E10. apply first_xsn_same. exists (l ++ [q]), row, (row ++ [SDict e1]). cbn [d_index]. repeat (split; [auto|]). apply cells_pyget; [lia|]. intro x. rewrite cell_snoc.
      split; [intros [Q|[Q _]]; [auto|pose proof (cell_range _ _ _ E4); lia]|auto].
    + intros k s K1 K2 C. apply cell_snoc. eauto.
Qed.

Lemma edition_changes l q re t data p x0 d row : edition l q re t data p x0 d row -> calm q -> (forall n, 0 < n -> n_xsn re <> Some n) ->
  exists chg, changes d = Ok chg /\ NoDup (map chg_num chg) /\
  (forall c, In c chg -> snd c <> Del /\ 0 < chg_num c /\ exists e o, cell row (chg_num c) (SDict e) /\ n_gen e = 0 /\ n_env e = None /\ cell (d_cache d) (chg_num c) o /\ savable o) /\
  (forall n, In n (map chg_num chg) <-> 0 < n /\ exists e, cell row n (SDict e) /\ n_pos e = None).
Proof.
  intros [E2 [E3 E3'] E4 E5 E6 E7 E8 E9 E10 E11] CQ XN.
  assert (TC : tidy row). { intros n s N C ll ->. destruct (E7 n _ N C) as (o & _ & [[D _]|(e & Q & _)]); [|discriminate]. destruct (CQ n _ N D) as [Q|(e & Q & _)]; discriminate. }
  assert (TP : tidy q). { intros n s N C ll ->. destruct (CQ n _ N C) as [Q|(e & Q & _)]; discriminate. }
  assert (S0 : exists s0, cell row 0 s0 /\ s0 <> SNone) by (exists (SDict re); split; [auto|discriminate]).
  assert (NX : forall n, 0 < n -> ~ xref_object row n). { intros n N (e & C & Q). pose proof (cell_fun _ _ _ _ C E4) as Y. injection Y as ->. eapply XN; eauto. }
  destruct (changes_spec d l q row E2 TC TP S0) as (chg & E & ND & CH). exists chg. split; auto. split; auto.
  assert (NEW : forall n e, 0 < n -> cell row n (SDict e) -> n_pos e = None -> at_num q n <> at_num row n).
  { intros n e N C NP Q. rewrite (at_num_cell row n _ ltac:(lia) C) in Q. assert (CC : cell q n (SDict e)).
    { rewrite <- Q. apply at_num_in. split; [lia|]. destruct (Z_lt_ge_dec n (Z.of_nat (length q))); auto. rewrite at_num_out in Q by lia. discriminate. }
    destruct (CQ n _ N CC) as [Q'|(e' & Q' & _ & P')]; [discriminate|]. injection Q' as <-. congruence. }
  split.
  - intros [[g i] a] I. apply CH in I as (PI & e & AT & -> & _ & NE & TG). cbn [snd chg_num fst].
    assert (C : cell row i (SDict e)). { rewrite <- AT. apply at_num_in. split; [lia|]. destruct (Z_lt_ge_dec i (Z.of_nat (length row))); auto. rewrite at_num_out in AT by lia. discriminate. }
    destruct (E7 i _ PI C) as (o & A1 & [[A2 _]|(e' & Q & A2 & A3 & A4 & A5 & A6 & A7)]).
    + exfalso. apply NE. rewrite (at_num_cell q i _ ltac:(lia) A2). auto.
    + injection Q as <-. split. { intros ->. inversion TG as [|_ LA|]; subst. rewrite AT in LA. cbn in LA. rewrite A5 in LA. discriminate. }
      split; auto. exists e, o. auto 8.
  - intros n. split.
    + intros I. apply in_map_iff in I as ([[g i] a] & Q & I). cbn in Q. subst i. apply CH in I as (PI & e & AT & -> & _ & NE & TG). split; auto.
      assert (C : cell row n (SDict e)). { rewrite <- AT. apply at_num_in. split; [lia|]. destruct (Z_lt_ge_dec n (Z.of_nat (length row))); auto. rewrite at_num_out in AT by lia. discriminate. }
      exists e. split; auto. destruct (E7 n _ PI C) as (o & A1 & [[A2 _]|(e' & Q & A2 & _)]); [|injection Q as <-; auto]. exfalso. apply NE. rewrite (at_num_cell q n _ ltac:(lia) A2). auto.
    + intros (N & e & C & NP). pose proof (NEW n e N C NP) as NQ. destruct (E7 n _ N C) as (o & A1 & [[A2 _]|(e' & Q & _ & _ & _ & A5 & _)]); [exfalso; apply NQ; rewrite (at_num_cell q n _ ltac:(lia) A2), (at_num_cell row n _ ltac:(lia) C); auto|].
      injection Q as <-. assert (LV : live (at_num row n) = true) by (rewrite (at_num_cell row n _ ltac:(lia) C); cbn; rewrite A5; auto).
      assert (exists a, tagged (at_num q n) (at_num row n) a) as [a TG].
      { destruct (at_num q n) eqn:QQ; [exists Add; constructor; auto|exists Upd; constructor 3; [discriminate|auto]|exists Upd; constructor 3; [discriminate|auto]]. }
      apply in_map_iff. exists ((n_gen e, n), a). split; auto. apply CH. split; auto. exists e. split; [apply at_num_cell; auto; lia|]. auto.
Qed.

(* ---------- sections that list the same objects ---------- *)
Lemma filter_alike n s s' : 0 < n -> alike s s' -> filter (fun e => n_num e =? n) (tl s) = filter (fun e => n_num e =? n) (tl s').
Proof.
  intros N (A & _). assert (G : forall l, filter (fun e => n_num e =? n) l = filter (fun e => n_num e =? n) (filter (fun e => 0 <? n_num e) l)).
  { induction l as [|e l IH]; auto. cbn [filter]. destruct (n_num e =? n) eqn:Q.
    - replace (0 <? n_num e) with true by lia. cbn [filter]. rewrite Q. f_equal. auto.
    - destruct (0 <? n_num e); auto. cbn [filter]. rewrite Q. auto. }
  rewrite G, A, <- G. reflexivity.
Qed.
Lemma history_alike n a a' : 0 < n -> Forall2 alike a a' -> forall k h, history n k h a = history n k h a'.
Proof. intros N F. induction F as [|s s' a a' S F IH]; intros k h; cbn [history]; auto. unfold remember_all. rewrite (filter_alike n s s' N S). auto. Qed.
Lemma Forall2_rev {A C} (P : A -> C -> Prop) l l' : Forall2 P l l' -> Forall2 P (rev l) (rev l').
Proof. induction 1; cbn [rev]; [constructor|]. apply Forall2_app; auto. Qed.
Lemma alike_in cs cs' s e : Forall2 alike cs cs' -> In s cs -> In e (tl s) -> 0 < n_num e -> exists s', In s' cs' /\ In e (tl s').
Proof.
  intros F I E N. induction F as [|a a' l l' A F IH]; [destruct I|]. destruct I as [->|I].
  - exists a'. split; [left; auto|]. destruct A as (A & _). assert (J : In e (filter (fun e => 0 <? n_num e) (tl s))) by (apply filter_In; split; [auto|lia]). rewrite A in J. apply filter_In in J. apply J.
  - destruct (IH I) as (s' & S1 & S2). exists s'. split; [right; auto|auto].
Qed.
Lemma alike_sym s s' : alike s s' -> alike s' s.
Proof. intros (A & h & es & h' & es' & E1 & E2 & X). split; [auto|]. exists h', es', h, es. auto. Qed.
Lemma alike_flip cs cs' : Forall2 alike cs cs' -> Forall2 alike cs' cs.
Proof. induction 1; constructor; auto. apply alike_sym. auto. Qed.
Lemma oldest_alike cs cs' : Forall2 alike cs cs' -> oldest_xsn cs = oldest_xsn cs'.
Proof.
  intro F. apply Forall2_rev in F. unfold oldest_xsn. destruct F as [|s s' a a' (_ & h & es & h' & es' & -> & -> & X) _]; auto.
Qed.

(* ---------- what the loaded row gives ---------- *)
Definition stored (q : list slot) (p : prov) (n : Z) : res obj :=
  let* s := pyget q n in let* del := deleted_in s in disk q p n.

Lemma value_old l q re t data p x0 d row n s : edition l q re t data p x0 d row -> calm q -> provider d p -> 0 < n -> cell row n s -> cell q n s -> value d n = stored q p n.
Proof.
  intros E CQ P N C1 C2. rewrite (value_is d n row p (edition_open _ _ _ _ _ _ _ _ _ E) P (ed_coh _ _ _ _ _ _ _ _ _ E)) by lia. unfold value_of, stored.
  rewrite (proj2 (pyget_cell row n _ ltac:(lia)) C1), (proj2 (pyget_cell q n _ ltac:(lia)) C2). cbn [bind].
  destruct (ed_cells _ _ _ _ _ _ _ _ _ E n s N C1) as (o & CO & D). rewrite (proj2 (pyget_cell _ n _ ltac:(lia)) CO).
  destruct (CQ n s N C2) as [->|(e & -> & DE & PE)]; [reflexivity|]. cbn [deleted_in bind]. rewrite DE. rewrite (disk_q _ _ _ _ _ _ _ _ _ n _ E N C1 C2).
  destruct D as [[_ [->|(_ & D)]]|(e' & Q & D & _)]; [reflexivity| |injection Q as <-; congruence]. destruct (is_none o); auto.
Qed.
Lemma value_new l q re t data p x0 d row n e : edition l q re t data p x0 d row -> calm q -> provider d p -> 0 < n -> cell row n (SDict e) -> n_pos e = None ->
  exists o, cell (d_cache d) n o /\ savable o /\ value d n = Ok o.
Proof.
  intros E CQ P N C NP. destruct (ed_cells _ _ _ _ _ _ _ _ _ E n _ N C) as (o & CO & [[D _]|(e' & Q & _ & _ & _ & D & _ & SV)]).
  - destruct (CQ n _ N D) as [Q|(e' & Q & _ & Q2)]; [discriminate|]. injection Q as <-. congruence.
  - injection Q as <-. exists o. split; auto. split; auto. rewrite (value_is d n row p (edition_open _ _ _ _ _ _ _ _ _ E) P (ed_coh _ _ _ _ _ _ _ _ _ E)) by lia. unfold value_of.
    rewrite (proj2 (pyget_cell row n _ ltac:(lia)) C), (proj2 (pyget_cell _ n _ ltac:(lia)) CO). cbn [bind deleted_in]. rewrite D. cbn [bind]. pose proof (savable_some o SV). destruct o; try reflexivity. congruence.
Qed.

Lemma loaded_calm d F cs x t nb q e0 : loaded d F cs x t nb q e0 -> sectioned F cs -> calm q /\
  forall n e, 0 < n -> cell q n (SDict e) -> exists v s e1 h, In s cs /\ In e1 (tl s) /\ n_num e1 = n /\ history n 0 [] (rev cs) = (v, e1) :: h /\ kin v (length h) e1 e.
Proof.
  intros L SC. destruct (ld_len _ _ _ _ _ _ _ _ L) as (NB & LQ & _).
  assert (G : forall n s, 0 < n -> cell q n s -> matches (history n 0 [] (rev cs)) s).
  { intros n s N C. pose proof (cell_range _ _ _ C). destruct (ld_cells _ _ _ _ _ _ _ _ L n ltac:(lia)) as (c & CC & M). now rewrite (cell_fun _ _ _ _ C CC). }
  assert (G2 : forall n e, 0 < n -> cell q n (SDict e) -> exists v s e1 h, In s cs /\ In e1 (tl s) /\ n_num e1 = n /\ history n 0 [] (rev cs) = (v, e1) :: h /\ kin v (length h) e1 e).
  { intros n e N C. specialize (G n _ N C). destruct (history n 0 [] (rev cs)) as [|[v e1] h] eqn:HE; [discriminate|]. destruct G as (e' & Q & K). injection Q as <-.
    assert (I : In (v, e1) (history n 0 [] (rev cs))) by (rewrite HE; left; auto). apply history_in in I as [[]|(j & s & J & _ & I & NN)].
    exists v, s, e1, h. split; [apply in_rev; eapply nth_error_In; eauto|]. auto. }
  split; [|exact G2]. intros n s N C. pose proof (G n s N C) as M. destruct s as [|e|ll]; [left; auto| |destruct (history n 0 [] (rev cs)) as [|[? ?] ?]; [discriminate|destruct M as (? & Q & _); discriminate]].
  right. exists e. split; auto. destruct (G2 n e N C) as (v & s & e1 & h & I1 & I2 & _ & _ & K). destruct K as (_ & _ & _ & K1 & _ & _ & K2 & _). split; auto.
  destruct (sc_entry _ _ SC s e1 I1) as (_ & D & _); [destruct s; [destruct I2|right; auto]|congruence].
Qed.

Lemma loaded_edition d F cs x t nb q e0 : loaded d F cs x t nb q e0 -> sectioned F cs -> coherent d -> exists l re data,
  edition l q re (opening_trailer e0 (closing_trailer (oldest_xsn cs) (Z.of_nat (length q)) t)) data (PvSingle F) (oldest_xsn cs) d (SDict re :: skipn 1 q) /\
  S (length l) = length cs /\ n_env re = None /\ n_del re = false /\ n_xsn re = (if truthy (oldest_xsn cs) then Some (-1) else None) /\ n_xt re = None /\
  exists dx, data = dx ++ [mk_datum (Some (blen F)) None (Some (PvSingle F)); mk_datum None None (Some (PvSingle F))] /\ S (length dx) = length cs /\ Forall is_cut dx /\ Forall (fun y => dt_fdata y = Some (PvSingle F)) dx.
Proof.
  intros L SC CO. destruct (loaded_calm _ _ _ _ _ _ _ _ L SC) as [CQ _]. destruct (ld_index _ _ _ _ _ _ _ _ L) as (l & re & E1 & LL & E2 & E3 & E4 & E5 & _). destruct (ld_len _ _ _ _ _ _ _ _ L) as (NB & LQ & LC).
  destruct (ld_data _ _ _ _ _ _ _ _ L) as (dx & D1 & D2 & D3 & D4). exists l, re, (d_data d). split; [|repeat (split; [assumption|]); exists dx; auto].
  assert (CR : forall k y, 0 < k -> cell (SDict re :: skipn 1 q) k y <-> cell q k y) by (intros k y K; apply cell_cons_skip; [lia|auto]).
  constructor; auto.
  - cbn [length]. rewrite skipn_length. lia.
  - split; [lia|reflexivity].
  - exact (ld_trailer _ _ _ _ _ _ _ _ L).
  - intros n s N C. pose proof (cell_range _ _ _ C) as R. apply CR in C; [|auto]. pose proof (cell_range _ _ _ C) as RQ. destruct (pyget_range (d_cache d) n) as [o O]; [lia|]. exists o. split; auto. left. split; auto. left. eapply (ld_cache _ _ _ _ _ _ _ _ L); eauto.
  - intros k ek env C EV. pose proof (cell_range _ _ _ C) as R. destruct (Z.eq_dec k 0) as [->|K]; [destruct C as [_ C]; cbn in C; injection C as <-; congruence|].
    assert (C' : cell q k (SDict ek)) by (apply CR; [lia|auto]). destruct (CQ k _ ltac:(lia) C') as [Q|(e & Q & D & _)]; [discriminate|]. injection Q as <-.
    assert (O : open_row d (SDict re :: skipn 1 q)) by (exists (l ++ [q]); rewrite E1, <- app_assoc; auto).
    assert (P : provider d (PvSingle F)) by (eexists (dx ++ [_]), _; rewrite D1; change (?a ++ [?b; ?c]) with (a ++ [b] ++ [c]); rewrite app_assoc; split; reflexivity).
    destruct (CO _ _ O P k ek env C D EV) as (ce & sd & st & en & ll & C0 & CE & _). split; auto. split; auto. exists (SDict ce). split; [|auto]. apply CR; auto.
  - exact (ld_xsn _ _ _ _ _ _ _ _ L).
  - intros k s _ K C. apply CR; auto.
Qed.

(* ---------- a section appended ---------- *)
Definition listed (lo hi : Z) (e : ient) : Prop :=
  1 <= n_num e /\ n_next e = None /\ n_del e = false /\ exists z, direct_at e z /\ lo < z < hi.

Lemma sectioned_snoc F R cs h es stm sx ep tp : sectioned F cs -> n_pos h = Some (AInt tp) -> blen F < tp < blen (F ++ R) -> n_num h = 0 -> n_env h = None -> n_next h = None -> n_del h = false ->
  Forall (listed (blen F) (blen (F ++ R))) es -> 0 <= ep < blen (F ++ R) -> stm = false -> sectioned (F ++ R) (close_section (h :: es) stm sx ep :: cs).
Proof.
  intros [INC ENT HEAD NUM EOF INS CON] HP HR HN HE HX HD FA EP ->. rewrite Forall_forall in FA. set (c := close_section (h :: es) false sx ep).
  assert (LF : blen F <= blen (F ++ R)) by (rewrite blen_app; unfold blen; lia). assert (F0 : 0 <= blen F) by (unfold blen; lia).
  set (ee := with_pos (Some (AInt ep)) (ient0 (-1) (-1))). assert (EC : c = with_stm false (with_sx (Some sx) h) :: es ++ [ee]) by reflexivity.
  assert (TL : forall e, In e (tl c) -> (In e es /\ listed (blen F) (blen (F ++ R)) e) \/ e = ee).
  { intros e I. rewrite EC in I. cbn [tl] in I. apply in_app_or in I as [I|[<-|[]]]; auto. }
  assert (NV : forall e, In e (tl c) -> n_env e = None). { intros e I. destruct (TL e I) as [(_ & _ & _ & _ & z & (Q & _) & _)| ->]; auto. }
  assert (NTH : forall j s, nth_error (rev (c :: cs)) j = Some s -> (nth_error (rev cs) j = Some s /\ (j < length cs)%nat) \/ (s = c /\ j = length cs)).
  { intros j s J. cbn [rev] in J. destruct (Nat.lt_ge_cases j (length (rev cs))) as [Q|Q].
    - rewrite nth_error_app1 in J by auto. rewrite rev_length in Q. auto.
    - rewrite nth_error_app2 in J by auto. destruct (j - length (rev cs))%nat as [|k] eqn:JJ; cbn in J; [|destruct k; discriminate]. injection J as <-. right. split; auto. rewrite rev_length in *. lia. }
  assert (NTO : forall i s, nth_error (rev cs) i = Some s -> nth_error (rev (c :: cs)) i = Some s).
  { intros i s I. cbn [rev]. rewrite nth_error_app1; auto. apply nth_error_Some. congruence. }
  constructor.
  - cbn [rev]. rewrite EC. apply (increasing_snoc tp); auto; [lia|]. intros t' es' p' I P. apply in_rev in I. destruct (ENT (t' :: es') t' I (or_introl eq_refl)) as (_ & _ & [(z & (_ & Q) & ZB)|(env & off & _ & Q)]); [|congruence]. assert (z = p') by congruence. lia.
  - intros s e [<-|I] E.
    + rewrite EC in E. destruct E as [<-|E].
      * split; [exact HX|]. split; [exact HD|]. left. exists tp. split; [split; [exact HE|exact HP]|lia].
      * apply in_app_or in E as [E|[<-|[]]].
        -- destruct (FA e E) as (_ & A1 & A2 & z & A3 & A4). split; auto. split; auto. left. exists z. split; auto. lia.
        -- split; [reflexivity|]. split; [reflexivity|]. left. exists ep. split; [split; reflexivity|auto].
    + destruct (ENT s e I E) as (A1 & A2 & A3). split; auto. split; auto. destruct A3 as [(z & A3 & A4)|A3]; [left; exists z; split; [auto|lia]|right; auto].
  - intros s [<-|I]; [|auto]. rewrite EC. eexists _, _. split; [reflexivity|]. auto.
  - intros s e [<-|I] E.
    + destruct (TL e E) as [(E' & A1 & A2 & A3 & z & (A4 & _) & _)| ->]; [right|left; auto]. split; auto. exists c, e. split; [left; auto|]. split; auto. split; auto. lia.
    + destruct (NUM s e I E) as [A|(A & s' & e' & B1 & B2 & B3 & B4)]; [left; auto|right]. split; auto. exists s', e'. split; [right; auto|auto].
  - intros s [<-|I]; [|auto]. exists ee. rewrite EC. cbn [tl]. split; [apply in_or_app; right; left; auto|reflexivity].
  - intros j s e env J I EV. destruct (NTH j s J) as [[J' _]|[-> _]]; [|rewrite (NV e I) in EV; discriminate].
    destruct (INS j s e env J' I EV) as (A & i & s' & e' & B1 & B2 & B3). split; auto. exists i, s', e'. split; auto.
  - intros j s e env i s' e' J I EV L I' E' N'. destruct (NTH j s J) as [[J' JL]|[-> _]]; [|rewrite (NV e I) in EV; discriminate].
    destruct (NTH i s' I') as [[I2 _]|[_ Q]]; [|lia]. exact (CON j s e env i s' e' J' I EV L I2 E' N').
Qed.

Lemma history_section n cs h es stm sx ep : 0 < n ->
  history n 0 [] (rev (close_section (h :: es) stm sx ep :: cs)) = fold_left (remember (Z.of_nat (length cs))) (filter (fun e => n_num e =? n) es) (history n 0 [] (rev cs)).
Proof.
  intro N. cbn [rev]. rewrite history_snoc. unfold remember_all. cbn [close_section tl]. rewrite filter_app. cbn [filter with_pos ient0 n_num]. replace (-1 =? n) with false by lia. rewrite app_nil_r, rev_length. reflexivity.
Qed.
Lemma filter_one n es e : NoDup (map n_num es) -> In e es -> n_num e = n -> filter (fun x => n_num x =? n) es = [e].
Proof.
  induction es as [|a es IH]; intros ND I N; [destruct I|]. cbn [map] in ND. inversion ND as [|? ? NI ND']; subst. cbn [filter]. destruct I as [->|I].
  - replace (n_num e =? n_num e) with true by lia. f_equal. destruct (filter _ es) as [|b l] eqn:Q; auto. exfalso. assert (J : In b (filter (fun x => n_num x =? n_num e) es)) by (rewrite Q; left; auto).
    apply filter_In in J as [J1 J2]. apply NI. apply in_map_iff. exists b. split; [lia|auto].
  - replace (n_num a =? n_num e) with false; [apply IH; auto|]. symmetry. apply Z.eqb_neq. intro Q. apply NI. rewrite Q. apply in_map. auto.
Qed.
Lemma filter_no n es : ~ In n (map n_num es) -> filter (fun x => n_num x =? n) es = [].
Proof.
  intro H. destruct (filter _ es) as [|b l] eqn:Q; auto. exfalso. assert (J : In b (filter (fun x => n_num x =? n) es)) by (rewrite Q; left; auto). apply filter_In in J as [J1 J2]. apply H. apply in_map_iff. exists b. split; [lia|auto].
Qed.

(* ---------- what was stored is stored ---------- *)
Lemma stored_same F R cs q q3 n : sectioned F cs ->
  (forall s e p, In s cs -> In e (tl s) -> 0 < n_num e -> direct_at e p -> object_read (F ++ R) (Z.to_nat p) = object_read F (Z.to_nat p)) ->
  (forall k c, cell q k c -> 0 < k -> matches (history k 0 [] (rev cs)) c) ->
  0 < n < Z.of_nat (length q) -> (length q <= length q3)%nat ->
  (forall c, cell q3 n c -> matches (history n 0 [] (rev cs)) c) ->
  (forall e env, cell q n (SDict e) -> n_env e = Some env -> 0 < env < Z.of_nat (length q) /\ (forall c, cell q3 env c -> matches (history env 0 [] (rev cs)) c) /\ forall e', cell q env (SDict e') -> n_env e' = None) ->
  stored q3 (PvSingle (F ++ R)) n = stored q (PvSingle F) n.
Proof.
  intros SC OB MQ RN LQ M3 ME. unfold stored.
  assert (SAME : forall k c c3, 0 < k -> cell q k c -> cell q3 k c3 -> matches (history k 0 [] (rev cs)) c3 -> (c = SNone /\ c3 = SNone) \/ exists e e3, c = SDict e /\ c3 = SDict e3 /\ n_del e = n_del e3 /\ n_env e = n_env e3 /\
    (n_env e = None -> parse_at (PvSingle (F ++ R)) e3 = parse_at (PvSingle F) e)).
  { intros k c c3 K C C3 M. pose proof (MQ k c C K) as M1. destruct (history k 0 [] (rev cs)) as [|[v e1] hh] eqn:HE; [left; auto|]. destruct M as (e3 & -> & K3). destruct M1 as (e & -> & K1). right. exists e, e3. split; auto. split; auto.
    destruct K3 as (_ & _ & V1 & D1 & _ & _ & _ & P1). destruct K1 as (_ & _ & V2 & D2 & _ & _ & _ & P2). split; [congruence|]. split; [congruence|]. intro EV.
    assert (I : In (v, e1) (history k 0 [] (rev cs))) by (rewrite HE; left; auto). apply history_in in I as [[]|(j & s & J & _ & I & NN)]. assert (IS : In s cs) by (apply in_rev; eapply nth_error_In; eauto).
    destruct (sc_entry _ _ SC s e1 IS) as (_ & _ & [(z & DZ & ZB)|(env & off & Q & _)]); [destruct s; [destruct I|right; auto]| |congruence].
    destruct (P1 z DZ) as (Q1 & x1 & N1 & L1). destruct (P2 z DZ) as (Q2 & x2 & N2 & L2). rewrite (parse_single F e z x2), (parse_single (F ++ R) e3 z x1) by (auto; rewrite blen_app; unfold blen in *; lia). eapply OB; eauto. lia. }
  destruct (pyget_range q n ltac:(lia)) as [c C]. destruct (pyget_range q3 n ltac:(lia)) as [c3 C3]. rewrite (proj2 (pyget_cell q n _ ltac:(lia)) C), (proj2 (pyget_cell q3 n _ ltac:(lia)) C3). cbn [bind].
  destruct (SAME n c c3 ltac:(lia) C C3 (M3 c3 C3)) as [[-> ->]|(e & e3 & -> & -> & DE & VE & PE)]; [reflexivity|]. cbn [deleted_in bind]. unfold disk.
  rewrite (proj2 (pyget_cell q n _ ltac:(lia)) C), (proj2 (pyget_cell q3 n _ ltac:(lia)) C3). cbn [bind]. replace (n =? 0) with false by lia. rewrite <- VE. destruct (n_env e) as [env|] eqn:EV; [|auto].
  destruct (ME e env C EV) as (RE & M4 & M5). destruct (pyget_range q env ltac:(lia)) as [k C']. destruct (pyget_range q3 env ltac:(lia)) as [k3 C3'].
  rewrite (proj2 (pyget_cell q env _ ltac:(lia)) C'), (proj2 (pyget_cell q3 env _ ltac:(lia)) C3'). cbn [bind].
  destruct (SAME env k k3 ltac:(lia) C' C3' (M4 k3 C3')) as [[-> ->]|(e' & e3' & -> & -> & DE' & VE' & PE')]; [reflexivity|]. cbn [as_dict bind]. rewrite PE'; auto.
Qed.

(* ---------- writing ---------- *)
Lemma write_edition l q re t dx F x0 d row chg out d2 : F <> [] ->
  edition l q re t (dx ++ [mk_datum (Some (blen F)) None (Some (PvSingle F)); mk_datum None None (Some (PvSingle F))]) (PvSingle F) x0 d row ->
  Forall is_cut dx -> Forall (fun y => dt_fdata y = Some (PvSingle F)) dx -> length dx = length l -> x0 <> Some (-1) -> changes d = Ok chg -> writefile d = Ok (out, d2) ->
  (chg = [] /\ out = F) \/ (chg <> [] /\ exists R ni cache', out = F ++ R /\
     build_revision_byte_stream chg row (lset (d_cache d) 0 (PDict (closing_trailer x0 (Z.of_nat (length row)) t))) (blen F) x0 = Ok (R, ni, cache') /\
     forall t3 pe, cell cache' 0 (PDict t3) -> cell ni 0 (SDict pe) -> cell (d_cache d2) 0 (PDict (opening_trailer pe t3))).
Proof.
  intros NF E DC DF DL XN EC W. set (dlast := mk_datum (Some (blen F)) None (Some (PvSingle F))) in *. set (op := mk_datum None None (Some (PvSingle F))) in *.
  assert (DA : d_data d = (dx ++ [dlast]) ++ [op]) by (rewrite (ed_data _ _ _ _ _ _ _ _ _ E), <- app_assoc; reflexivity).
  assert (DC' : Forall is_cut (dx ++ [dlast])) by (apply Forall_app; split; [auto|constructor; [discriminate|constructor]]).
  assert (SH : shaped d (dx ++ [dlast]) [] [op]).
  { constructor; auto; [|left; exists op; auto]. rewrite DA, (ed_index _ _ _ _ _ _ _ _ _ E), !app_length. cbn [length]. lia. }
  assert (BO : base_of (dx ++ [dlast]) = Ok F).
  { assert (G : file_prefix (PvSingle F) (blen F) = Ok F) by (unfold blen; rewrite prefix_single by (auto; lia); now rewrite firstn_all).
    destruct dx as [|y dx]; [cbn [app base_of last dlast dt_cut dt_fdata of_opt bind]; exact G|]. cbn [app base_of]. change (y :: dx ++ [dlast]) with ((y :: dx) ++ [dlast]). rewrite last_last.
    cbn [dlast dt_cut of_opt bind]. inversion DF as [|? ? DY _]; subst. rewrite DY. cbn [of_opt bind]. exact G. }
  assert (CBF : forall fr m, fragments fr = Ok m -> closed_bytes (dx ++ [dlast]) fr = Ok (F ++ m)) by (intros fr m M; unfold closed_bytes; rewrite BO, M; reflexivity).
  destruct (write_shape _ _ _ _ _ _ SH W) as (cuts' & frags' & tl' & SH' & CB & CM & _).
  destruct chg as [|c0 chg0].
  { left. split; auto. unfold commit in CM. rewrite EC in CM. cbn [bind] in CM. injection CM as <-.
    destruct (shape_unique (dx ++ [dlast]) [] op cuts' frags' tl') as [<- <-]; [cbn [app]; rewrite <- DA; apply (sh_data _ _ _ _ SH')|auto|apply SH'|constructor|apply SH'|auto|apply SH'|].
    rewrite (CBF [] [] eq_refl), app_nil_r in CB. congruence. }
  right. split; [discriminate|]. set (chg := c0 :: chg0) in *. assert (NE : chg <> []) by discriminate. clearbody chg.
  destruct (commit_inv d _ d2 EC NE CM) as (lx' & row0 & t0 & x0' & row1 & x & dx' & dl & dl' & ni & cache' & pe & t3 & fd & Ei & C0' & Ex & Erx & Ed & CL & PE & C3 & Ef & E2).
  rewrite (ed_xsn _ _ _ _ _ _ _ _ _ E) in Ex. injection Ex as <-.
  assert (row0 = row). { rewrite (ed_index _ _ _ _ _ _ _ _ _ E) in Ei. change (l ++ [q; row]) with (l ++ [q] ++ [row]) in Ei. rewrite app_assoc in Ei. apply app_inj_tail in Ei as [_ ->]. auto. } subst row0.
  assert (row1 = row /\ x = x0) as [-> ->]. { destruct x0 as [z|]; [|injection Erx as <- <-; auto]. unfold commit_row in Erx. destruct (truthy (Some z)); [|injection Erx as <- <-; auto]. destruct (z =? -1) eqn:Q; [exfalso; apply XN; f_equal; lia|injection Erx as <- <-; auto]. }
  assert (t0 = t) by (pose proof (cell_fun _ _ _ _ C0' (ed_tr _ _ _ _ _ _ _ _ _ E)); congruence). subst t0.
  assert (dx' = dx ++ [dlast] /\ dl = op) as [-> ->]. { rewrite DA in Ed. apply app_inj_tail in Ed as [-> ->]. auto. }
  inversion CL as [c Q|v b ni' c' Ecut L1 EB|idx b ni' c' q' Ecut L1 EI EB Eq NB]; subst.
  - discriminate.
  - exfalso. rewrite (ed_index _ _ _ _ _ _ _ _ _ E), app_length in L1. cbn [length] in L1. lia.
  - assert (idx = blen F). { unfold revision_index in EI. rewrite DA, app_length in EI. cbn [length] in EI. replace (length (dx ++ [dlast]) + 1 - 1)%nat with (length (dx ++ [dlast])) in EI by lia.
      rewrite firstn_app, Nat.sub_diag, firstn_all, firstn_O, app_nil_r in EI. rewrite (revision_sum_last dx dlast 0 (blen F) DC eq_refl) in EI. congruence. } subst idx.
    exists b, ni, cache'. split; [|split; [exact EB|]].
    2:{ intros t' pe' Q1 Q2. pose proof (cell_fun _ _ _ _ C3 Q1) as Q. injection Q as ->. destruct PE as [PE|(ll & PE & _)]; pose proof (cell_fun _ _ _ _ PE Q2) as Q; [injection Q as ->|discriminate].
      cbn [d_cache]. change 0%nat with (Z.to_nat 0). apply cell_lset; [|auto]. apply cell_range in Q1. lia. }
    set (dl' := mk_datum None (Some b) _) in *. set (op' := mk_datum None None (Some fd)) in *.
    destruct (shape_unique (dx ++ [dlast]) [dl'] op' cuts' frags' tl') as [<- <-].
    { rewrite <- (sh_data _ _ _ _ SH'). reflexivity. }
    { auto. } { apply SH'. } { constructor; [split; [reflexivity|discriminate]|constructor]. } { apply SH'. } { reflexivity. } { apply SH'. }
    rewrite (CBF [dl'] b) in CB; [congruence|]. cbn [fragments dl' dt_bdata of_opt bind]. now rewrite app_nil_r.
Qed.

(* ---------- the section that a save appends ---------- *)
Lemma section_all F0 secs s pre : sect_ok F0 secs s -> length pre = s_x s -> exists tp, Z.of_nat (s_x s) <= tp < Z.of_nat (s_x s + length (s_txt s)) /\
  forall post, let G := pre ++ s_txt s ++ tail_text (s_x s) ++ post in
  (forall last startx, Z.of_nat (s_x s) <= last -> read_section (PvSingle G) (Z.of_nat (s_x s)) last startx = Ok (section_entry (Z.of_nat (s_x s)) tp :: entries s, rvd (s_tr s), G)) /\
  trailer_read G (Z.to_nat tp) = Ok (rvd (s_tr s)).
Proof.
  intros OK L. destruct (table_section _ _ _ _ (so_fmt _ _ _ OK) (so_elems _ _ _ OK) (so_wf _ _ _ OK)) as (pr & PR & T).
  exists (Z.of_nat (length pre + pr)). rewrite <- L. split; [lia|]. intros post G. destruct (T pre (tail_text (length pre) ++ post) (tail_follows _ _)) as [T1 T2]. clear T. fold G in T1, T2.
  assert (LF : length G = (length pre + length (s_txt s) + length (tail_text (length pre)) + length post)%nat) by (unfold G; rewrite !app_length; lia). split.
  - intros last startx LE. destruct (single_at G (length pre) (last - Z.of_nat (length pre))) as (n & R); [lia|lia|].
    specialize (T1 (PvSingle G) _ _ startx R). replace (Z.of_nat (length pre) + (last - Z.of_nat (length pre))) with last in T1 by lia. exact T1.
  - set (e := with_next (Some (Z.of_nat (length pre + pr) + 1)) (with_pos (Some (AInt (Z.of_nat (length pre + pr)))) (ient0 0 0))).
    destruct (single_at G (length pre + pr) 1) as (n & R); [lia|lia|].
    rewrite <- (trailer_single G e (Z.of_nat (length pre + pr)) (Z.of_nat (length pre + pr) + 1)); [|reflexivity|reflexivity|unfold blen; lia|lia].
    eapply T2; [reflexivity|reflexivity|reflexivity|]. replace (_ + 1 - _) with 1 by lia. exact R.
Qed.

Lemma starts_grow p : forall s X, starts p s = true -> starts p (s ++ X) = true.
Proof. intros s X H. apply starts_iff in H as (b & ->). apply starts_iff. exists (b ++ X). now rewrite app_assoc. Qed.
Lemma find_from_grow p X : p <> [] -> forall s i k, find_from p s i = Some k -> find_from p (s ++ X) i = Some k.
Proof.
  intro NP. induction s as [|c s IH]; intros i k H; cbn [find_from] in H.
  - destruct (starts p []) eqn:Q; [|discriminate]. apply starts_iff in Q as (b & Q). destruct p; [congruence|discriminate].
  - cbn [app find_from]. destruct (starts p (c :: s)) eqn:Q.
    + change (c :: s ++ X) with ((c :: s) ++ X). rewrite (starts_grow _ _ X Q). auto.
    + change (c :: s ++ X) with ((c :: s) ++ X). destruct (starts p ((c :: s) ++ X)) eqn:Q2; [|auto]. exfalso.
      pose proof (find_from_ge _ _ _ _ H) as [_ LL]. apply starts_iff in Q2 as (b & Q2).
      assert (starts p (c :: s) = true); [|congruence]. apply starts_iff. exists (skipn (length p) (c :: s)).
      assert (LP : (length p <= length (c :: s))%nat) by (cbn [length]; pose proof (find_from_ge _ _ _ _ H); lia).
      assert (FP : firstn (length p) ((c :: s) ++ X) = p) by (rewrite Q2, firstn_app, Nat.sub_diag, firstn_all, firstn_O, app_nil_r; auto).
      rewrite firstn_app in FP. replace (length p - length (c :: s))%nat with 0%nat in FP by lia. rewrite firstn_O, app_nil_r in FP. rewrite <- FP at 1. now rewrite firstn_skipn.
Qed.
Lemma find_grow p t X i k : p <> [] -> (i <= length t)%nat -> find p t i = Some k -> find p (t ++ X) i = Some k.
Proof.
  intros NP L H. unfold find in *. rewrite skipn_app. replace (i - length t)%nat with 0%nat by lia. cbn [skipn]. destruct (Nat.ltb_spec (length t) i); [discriminate|]. destruct (Nat.ltb_spec (length (t ++ X)) i); [rewrite app_length in *; lia|]. apply find_from_grow; auto.
Qed.

Lemma good_object F n z w : good F n z w -> object_read F (Z.to_nat z) = Ok w.
Proof.
  intro G. pose proof (good_range _ _ _ _ G) as R. set (e := with_next (Some (z + 1)) (with_pos (Some (AInt z)) (ient0 0 0))).
  rewrite <- (parse_single F e z (z + 1)); [|reflexivity|reflexivity|auto|lia]. apply (good_parse F n z w e (z + 1)); [exact G|reflexivity|reflexivity|lia].
Qed.

(* the section that R adds to F: it starts at xs, lists es, and its trailer is tr *)
Record newsec (F R : bytes) (x : Z) (xs : nat) (h : ient) (es : list ient) (tr : dict) : Prop := mk_newsec {
  ns_text : exists pre txt, length pre = xs /\ F ++ R = pre ++ txt ++ tail_text xs /\ (length F <= xs)%nat;
  ns_read : forall post last startx, Z.of_nat xs <= last -> Z.of_nat xs <= startx ->
    read_section (PvSingle ((F ++ R) ++ post)) (Z.of_nat xs) last startx = Ok (h :: es, tr, (F ++ R) ++ post);
  ns_trailer : exists tp, n_pos h = Some (AInt tp) /\ blen F < tp < blen (F ++ R) /\ trailer_read (F ++ R) (Z.to_nat tp) = Ok tr;
  ns_prev : wfv (PDict tr) /\ int_entry K_XRefStm tr = Ok 0 /\ dget K_XRefStm tr = None /\ int_entry K_Prev tr = Ok x;
  ns_head : n_num h = 0 /\ n_env h = None /\ n_next h = None /\ n_del h = false /\ section_pos [h] = Some (Z.of_nat xs);
  ns_listed : Forall (listed (blen F) (blen (F ++ R))) es;
  ns_good : forall e, In e es -> exists z w, n_pos e = Some (AInt z) /\ good (F ++ R) (n_num e) z w;
  ns_news : exists e, In e es /\ n_xsn h <> Some (n_num e);
  ns_len : (0 < xs)%nat /\ (100 <= length (F ++ R))%nat /\ blen (F ++ R) < 10 ^ 10
}.

Lemma lasting_step f F cs cs' x t R xs h es tr : lasting f F cs cs' x t -> newsec F R x xs h es tr ->
  exists sx ep sx' ep', lasting (S f) (F ++ R) (close_section (h :: es) false sx ep :: cs') (close_section (h :: es) false sx' ep' :: cs') (Z.of_nat xs) tr.
Proof.
  intros LA [(pre & txt & SX & EF & SF) T (tp & HP & TP & T2) (W & P1 & P3 & P2) (H1 & H2 & H3 & H4 & H5) LI GD (en & EN1 & EN2) (SPS & L1 & L2)]. set (out := F ++ R) in *. destruct LA as [RB [AL SC'] AG OB].
  destruct RB as [RD SC (X0 & _) TR _ _].
  assert (TLN : (16 <= length (tail_text xs))%nat) by (unfold tail_text; rewrite !app_length; cbn [length B list_ascii_of_string map]; vm_compute length; lia).
  assert (LO : length out = (xs + length txt + length (tail_text xs))%nat) by (rewrite EF, !app_length, SX; lia).
  assert (SEC : forall sx ep, 0 <= ep < blen out -> sectioned out (close_section (h :: es) false sx ep :: cs')).
  { intros sx ep EP. apply (sectioned_snoc F R cs' h es false sx ep tp); auto. }
  set (b := pre ++ txt ++ B "startxref" ++ [10] ++ dec (Z.of_nat xs) ++ [10]).
  assert (EB : out = b ++ B "%%EOF" ++ [10]) by (rewrite EF; unfold b, tail_text; rewrite <- !app_assoc; reflexivity).
  assert (LB : blen b = blen out - 6) by (rewrite EB, !blen_app; change (blen (B "%%EOF")) with 5; change (blen [10]) with 1; lia).
  assert (B0 : 0 <= blen b) by (unfold blen; lia).
  assert (DX : dhas K_XRefStm tr = false) by (unfold dhas; now rewrite P3).
  assert (CR : xref_chrono (S f) (PvSingle out) = Ok (close_section (h :: es) false (Z.of_nat (length (pre ++ txt))) (blen out - 6) :: cs')).
  { rewrite (find_start out (pre ++ txt) xs); [|rewrite EF, <- app_assoc; auto|auto|auto|lia].
    pose proof (T [] (Z.of_nat (length (pre ++ txt))) (Z.of_nat (length (pre ++ txt)))) as T1. rewrite app_nil_r in T1. rewrite T1 by (rewrite app_length, SX; lia). cbn [bind]. rewrite P1. cbn [bind]. rewrite P2. cbn [bind].
    unfold out. rewrite AG. cbn [bind]. rewrite DX. reflexivity. }
  (* the markers stay where they are *)
  assert (SXF : exists k, find W_startxref out xs = Some k /\ (xs <= k < length out)%nat).
  { rewrite <- SX. pose proof (find_within W_startxref pre txt ([10] ++ dec (Z.of_nat xs) ++ [10] ++ B "%%EOF" ++ [10])) as Q. rewrite EF. unfold tail_text. change W_startxref with (B "startxref") in *. rewrite <- ?app_assoc in *. apply Q. discriminate. }
  assert (EPF : exists k, find W_EOF out xs = Some k /\ (xs <= k < length out)%nat).
  { rewrite <- SX. pose proof (find_within W_EOF pre (txt ++ B "startxref" ++ [10] ++ dec (Z.of_nat xs) ++ [10]) [10]) as Q. rewrite EF. unfold tail_text. change W_EOF with (B "%%EOF") in *. rewrite <- ?app_assoc in *. apply Q. discriminate. }
  destruct SXF as (k1 & K1 & K1'). destruct EPF as (k2 & K2 & K2').
  assert (AGN : forall X, xref_chain (S (S f)) (PvSingle (out ++ X)) (out ++ X) (Z.of_nat xs) 0 = Ok (close_section (h :: es) false (Z.of_nat k1) (Z.of_nat k2) :: cs')).
  { intros X. change (xref_chain (S (S f)) (PvSingle (out ++ X)) (out ++ X) (Z.of_nat xs) 0) with
      (if (Z.of_nat xs =? 0) && (0 =? 0) then Ok [] else
       if Z.of_nat xs <? 0 then Exc EUnsupported
       else let sx := znat (find W_startxref (out ++ X) (Z.to_nat (Z.of_nat xs))) in
       let ep := znat (find W_EOF (out ++ X) (Z.to_nat (Z.of_nat xs))) in
       let* (xi, tr, t') := read_section (PvSingle (out ++ X)) (Z.of_nat xs) ep sx in
       let* (hasstm, stm2, prev2) := (if 0 =? 0 then let* s0 := int_entry K_XRefStm tr in let* q := int_entry K_Prev tr in Ok (dhas K_XRefStm tr, s0, q) else Ok (false, 0, 0)) in
       let* rest := xref_chain (S f) (PvSingle (out ++ X)) t' prev2 stm2 in
       Ok (close_section xi hasstm sx ep :: rest)).
    replace (Z.of_nat xs =? 0) with false by lia. replace (Z.of_nat xs <? 0) with false by lia. cbn [andb]. rewrite Nat2Z.id.
    assert (SLO : (xs <= length out)%nat) by lia.
    rewrite (find_grow W_startxref out X xs k1) by (first [exact K1|exact SLO|discriminate]). rewrite (find_grow W_EOF out X xs k2) by (first [exact K2|exact SLO|discriminate]). cbn [znat].
    rewrite T by lia. cbn [bind]. change (0 =? 0) with true. cbn iota. rewrite P1. cbn [bind]. rewrite P2. cbn [bind].
    unfold out. rewrite <- app_assoc. rewrite AG. cbn [bind]. rewrite DX. reflexivity. }
  exists (Z.of_nat (length (pre ++ txt))), (blen out - 6), (Z.of_nat k1), (Z.of_nat k2).
  constructor.
  - constructor.
    + exact CR.
    + apply SEC. unfold blen in *. lia.
    + split; [lia|]. eexists _, _, _, tp. split; [reflexivity|]. split; [exact H5|]. split; [exact HP|]. exact T2.
    + split; auto.
    + exists b, [10], (close_section (h :: es) false (Z.of_nat (length (pre ++ txt))) (blen out - 6)), cs'. split; [exact EB|]. split; [constructor; [vm_compute; auto|constructor]|]. split; [reflexivity|].
      intros e I N. cbn [close_section tl] in I. apply in_app_or in I as [I|[<-|[]]].
      * rewrite Forall_forall in LI. destruct (LI e I) as (Q & _). lia.
      * cbn [with_pos n_pos]. now rewrite LB.
    + rewrite Forall_forall in LI. destruct (LI en EN1) as (N0 & _ & _ & z & (_ & PZ) & ZB).
      eexists _, _, _, en. split; [reflexivity|]. split; [apply in_or_app; left; exact EN1|]. split; [lia|]. split; [exact EN2|]. intros s0 e' I I' N' E'.
      destruct (sc_entry _ _ SC' s0 e' I) as (_ & _ & [(z' & (_ & D) & DB)|(env & off & _ & D)]); [destruct s0; [destruct I'|right; auto]| |congruence]. assert (z = z') by congruence. lia.
  - split; [|apply SEC; unfold blen; lia]. constructor.
    + split; [cbn [close_section tl]; rewrite !filter_app; reflexivity|]. eexists _, _, _, _. split; [reflexivity|]. split; reflexivity.
    + pose proof (sc_head _ _ SC') as HH. clear -HH. induction cs' as [|a r IH]; constructor; [|apply IH; intros s0 I; apply HH; right; auto].
      destruct (HH a (or_introl eq_refl)) as (t0 & es0 & -> & _). split; [reflexivity|]. exists t0, es0, t0, es0. auto.
  - exact AGN.
  - intros s0 e p X [<-|I] E N D.
    + cbn [close_section tl] in E. apply in_app_or in E as [E|[<-|[]]]; [|cbn in N; lia]. destruct (GD e E) as (z & w & PZ & G). destruct D as [_ D]. assert (z = p) by congruence. subst z.
      rewrite (good_object _ _ _ _ G). apply good_object with (n := n_num e). apply good_app. exact G.
    + destruct (alike_in cs' cs s0 e (alike_flip _ _ AL) I E N) as (s1 & I1 & E1). unfold out. rewrite <- app_assoc. rewrite (OB s1 e p (R ++ X) I1 E1 N D), (OB s1 e p R I1 E1 N D). reflexivity.
Qed.

(* an xref table *)
Lemma table_newsec F R x s body fake : Z.of_nat (s_x fake) = x -> sect_ok F [fake] s -> s_x s = length (F ++ body) -> F ++ R = (F ++ body) ++ s_txt s ++ tail_text (s_x s) -> entries s <> [] ->
  (100 <= length (F ++ R))%nat -> blen (F ++ R) < 10 ^ 10 ->
  (forall e, In e (entries s) -> exists z w, n_pos e = Some (AInt z) /\ good (F ++ R) (n_num e) z w) ->
  exists h, n_xsn h = None /\ newsec F R x (s_x s) h (entries s) (rvd (s_tr s)).
Proof.
  intros FX OK SX EF NE L1 L2 GD. set (pre := F ++ body) in *. set (out := F ++ R) in *.
  destruct (section_all F [fake] s pre OK (eq_sym SX)) as (tp & TP & T).
  destruct (prev_entry _ _ _ OK) as (P1 & P2 & P3). cbn [head_x] in P2. rewrite FX in P2.
  assert (EO : out = pre ++ s_txt s ++ tail_text (s_x s) ++ []) by (rewrite app_nil_r; exact EF).
  assert (TLN : (16 <= length (tail_text (s_x s)))%nat) by (unfold tail_text; rewrite !app_length; cbn [length B list_ascii_of_string map]; vm_compute length; lia).
  assert (LO : length out = (s_x s + length (s_txt s) + length (tail_text (s_x s)))%nat) by (rewrite EF, !app_length, SX; lia).
  assert (SF : (length F <= s_x s)%nat) by (rewrite SX; unfold pre; rewrite app_length; lia).
  assert (FN : blen F < tp /\ (0 < s_x s)%nat).
  { destruct (entries s) as [|e0 r0] eqn:Q; [congruence|]. pose proof (entries_shape _ _ _ OK) as SH. rewrite Q in SH. inversion SH as [|? ? (n & z & _ & _ & Z1) _]; subst. unfold blen in *. lia. }
  destruct FN as [FN SPS]. exists (section_entry (Z.of_nat (s_x s)) tp). split; [reflexivity|]. constructor; auto.
  - exists pre, (s_txt s). auto.
  - intros post last startx LE _. destruct (T post) as [T1 _]. cbv zeta in T1. replace (pre ++ s_txt s ++ tail_text (s_x s) ++ post) with (out ++ post) in T1 by (rewrite EF, <- !app_assoc; reflexivity). apply T1. auto.
  - destruct (T []) as [_ T2]. cbv zeta in T2. rewrite <- EO in T2. exists tp. split; [reflexivity|]. split; [fold out; unfold blen in *; lia|exact T2].
  - split; [apply wfv_rvd; exact (so_wf _ _ _ OK)|]. split; auto. split; auto. rewrite dget_rvd by (apply wfv_nodup; exact (so_wf _ _ _ OK)). rewrite (so_stm _ _ _ OK). reflexivity.
  - eapply Forall_impl; [|exact (entries_shape _ _ _ OK)]. intros e (n & z & -> & N & Z1). split; [exact N|]. split; [reflexivity|]. split; [reflexivity|]. exists z. split; [split; reflexivity|]. fold out. unfold blen in *. lia.
  - destruct (entries s) as [|e0 r0] eqn:Q; [congruence|]. exists e0. split; [left; auto|discriminate].
Qed.

(* a revision written with an xref stream numbered num *)
Lemma revision_stream P row cache t chg R ni cache' num :
  build_revision_byte_stream chg row cache (blen P) (Some num) = Ok (R, ni, cache') ->
  cell cache 0 (PDict t) -> NoDup (map chg_num chg) -> chg <> [] -> 0 < num -> ~ In num (map chg_num chg) ->
  (forall c, In c chg -> snd c <> Del /\ 0 < chg_num c /\ exists e o, cell row (chg_num c) (SDict e) /\ n_gen e = 0 /\ n_env e = None /\ cell cache (chg_num c) o /\ savable o) ->
  (exists e0, cell row 0 (SDict e0) /\ n_env e0 = None) ->
  exists pre txt t1 elems, let x0 := Z.of_nat (length pre) in
    P ++ R = (pre ++ txt) ++ tail_text (length pre) /\ blen P + 17 <= x0 /\
    format_xref_stream (elems ++ [mk_xe false num 0 (Some x0) None]) t (circular_deleted chg) num = Ok (txt, t1) /\ cell cache' 0 (PDict t1) /\
    NoDup (map xe_num elems) /\
    (forall e, In e elems -> e = mk_xe true 0 65534 None None \/ exists i z o, In i (map chg_num chg) /\ e = mk_xe false i 0 (Some z) None /\ cell cache i o /\
       good (P ++ R) i z (rvs o) /\ peq o (rvs o) /\ blen P < z < x0) /\
    (forall i, In i (map chg_num chg) -> exists e, In e elems /\ xe_num e = i) /\
    (exists e, cell row num (SDict e)) /\
    exists e0 nx, cell row 0 (SDict e0) /\ cell ni 0 (SDict (with_next nx (with_pos (Some (AInt x0)) (with_xs (Some x0) e0)))).
Proof.
  intros BR C0 ND NE N0 NK CC (e0 & Z0 & ZE).
  assert (NN : Forall (fun c => 1 <= num_of c) chg) by (apply Forall_forall; intros c I; destruct (CC c I) as (_ & Q & _); unfold chg_num in Q; unfold num_of; lia).
  assert (NOEMB : forall c, In c chg -> emb row c = false).
  { intros c I. destruct (CC c I) as (_ & _ & e & o & [_ C] & _ & E & _). unfold emb. unfold num_of. unfold chg_num in C. rewrite C, E. cbn. apply andb_false_r. }
  destruct (revision_layout chg row cache (blen P) (Some num) R ni cache' BR NN) with (P := P) as (l & elems & built & cnt & cache1 & (body & ER & EB) & AP & RG & PM & F2 & SS & CK & LN & UN & XS & _); auto.
  { intros c I Q. injection Q as Q. apply NK. rewrite Q. apply (in_map chg_num) in I. exact I. }
  { intros x Q. injection Q as <-. lia. }
  { intros c e env I C Q. destruct (CC c I) as (_ & _ & e' & o & C' & _ & E & _). unfold chg_num in C'. pose proof (cell_fun _ _ _ _ C C') as X. injection X as ->. congruence. }
  { intros n dd ss ee fl (c & e & I & M & _). rewrite NOEMB in M by auto. discriminate. }
  { intros c c' e' I I' M. rewrite NOEMB in M by auto. discriminate. }
  { intros e C. pose proof (cell_fun _ _ _ _ C Z0) as X. injection X as ->. auto. }
  replace (num =? 0) with false in XS by lia. destruct XS as (t0 & t1 & C10 & FX & CT1 & _ & (e0' & C0' & NI0) & (ek & nk & CK0 & _)).
  assert (CK' : forall n x, cell cache1 n x <-> cell cache n x) by (intros n x; apply CK; intros c e I M; rewrite NOEMB in M by auto; discriminate).
  assert (t0 = t) by (apply CK' in C10; pose proof (cell_fun _ _ _ _ C10 C0) as Q; injection Q; auto). subst t0.
  assert (NUMS : map xe_num elems = map num_of l) by (clear -F2; induction F2; cbn; auto; f_equal; auto; eapply placed_num; eauto).
  assert (NDE : NoDup (map xe_num elems)).
  { rewrite NUMS. eapply Permutation_NoDup; [apply Permutation_map; exact PM|]. cbn [map num_of fst snd]. constructor; auto.
    intro I. apply in_map_iff in I as (c & Q & I). rewrite Forall_forall in NN. specialize (NN _ I). lia. }
  assert (PC0 : cnt = Z.of_nat (length (P ++ body))) by (rewrite <- EB; reflexivity).
  assert (PL : forall e, In e elems -> e = mk_xe true 0 65534 None None \/
     exists i z o, In i (map chg_num chg) /\ e = mk_xe false i 0 (Some z) None /\ cell cache i o /\ good (P ++ R) i z (rvs o) /\ peq o (rvs o) /\ blen P < z /\ z + 16 <= cnt).
  { intros e IE. pose proof IE as I. apply In_nth_error in I as [k K]. assert (exists c, nth_error l k = Some c /\ placed (P ++ R) row cache1 ni c e) as (c & KC & PC).
    { clear -F2 K. revert k K. induction F2; intros [|k] K; cbn in K; try discriminate; [injection K as <-; exists x; auto|apply IHF2 in K; auto]. }
    assert (IC : In c (((0, 0), Del) :: chg)) by (eapply Permutation_in; [symmetry; exact PM|eapply nth_error_In; eauto]).
    destruct IC as [<-|IC]; [left; inversion PC; subst; auto; congruence|].
    right. destruct (CC c IC) as (D1 & D2 & e1 & o1 & D3 & D4 & D5 & D6 & D7). unfold chg_num in *.
    inversion PC as [| g n ce NZ CE|g n a ce o o' v off ND1 CE EN CO WV SV AT CN|g n a ce o v env ps ND1 CE EN]; subst; cbn [fst snd] in *; try congruence.
    - pose proof (cell_fun _ _ _ _ CE D3) as Q. injection Q as ->. apply CK' in CO. pose proof (cell_fun _ _ _ _ CO D6) as Q. subst o.
      assert (o' = o1) by (unfold written_value in WV; rewrite (proj2 D7) in WV; auto). subst o'. rewrite D4, D5 in *.
      exists n, off, o1. split; [apply (in_map (fun c : change => snd (fst c))) in IC; exact IC|]. split; auto. split; auto. split; [|split; [apply storable_peq; apply D7|]].
      + split. { pose proof (storable_peq _ (proj1 D7)) as PQ. intro X. rewrite X in PQ. inversion PQ. subst o1. eapply savable_some; eauto. }
        destruct (valtxt_storable o1 (proj1 D7)) as (v' & V). exists o1, v'. split; auto. destruct V as (V & _). assert (v' = v) by congruence. subst v'. auto.
      + rewrite Forall_forall in RG. apply (RG _ IE eq_refl off eq_refl).
    - pose proof (cell_fun _ _ _ _ CE D3) as Q. injection Q as ->. congruence. }
  assert (INL : forall i, In i (map chg_num chg) -> exists e, In e elems /\ xe_num e = i).
  { intros i I. assert (J : In i (map xe_num elems)). { rewrite NUMS. eapply Permutation_in; [apply Permutation_map; exact PM|]. right. exact I. }
    apply in_map_iff in J as (e & Q & J). eauto. }
  exists (P ++ body), built, t1, elems. cbv zeta. rewrite <- PC0. split; [rewrite ER; unfold tail_text; rewrite <- PC0, <- !app_assoc; reflexivity|]. split.
  { destruct chg as [|c chg]; [congruence|]. destruct (INL (chg_num c) (or_introl eq_refl)) as (e & J & N). destruct (PL e J) as [->|(i & z & o & _ & _ & _ & _ & _ & Z1 & Z2)]; [|lia].
    destruct (CC c (or_introl eq_refl)) as (_ & PI & _). cbn [xe_num] in N. lia. }
  split; [exact FX|]. split; [exact CT1|]. split; [exact NDE|]. split.
  { intros e I. destruct (PL e I) as [->|(i & z & o & A1 & A2 & A3 & A4 & A5 & A6 & A7)]; [left; auto|right]. exists i, z, o. repeat (split; [assumption|]). lia. }
  split; [exact INL|]. split; [eauto|]. exists e0'. eexists. split; [exact C0'|exact NI0].
Qed.

Lemma trailer_object F num x d s en : 0 <= num -> good F num (Z.of_nat x) (PStream d s en) -> trailer_read F x = Ok d.
Proof.
  intros N0 G. pose proof (good_object _ _ _ _ G) as O. rewrite Nat2Z.id in O. destruct G as (_ & o & v & _ & pre & post & E & L). apply Nat2Z.inj in L.
  unfold object_read in O. unfold trailer_read.
  assert (NT : next_token F x = (x, (x + length (dec num))%nat, Some TInteger)).
  { pose proof (next_token_white pre [] (dec num) TInteger ([32] ++ dec 0 ++ B " obj" ++ [10] ++ v ++ [10] ++ B "endobj" ++ [10] ++ post) ltac:(constructor) (dec_tok _) (or_intror (sep_cons 32 _ ltac:(unfold white; lia)))) as N.
    cbn [app] in N. rewrite app_nil_r, L in N. rewrite <- N. f_equal. rewrite E. unfold object_text. rewrite <- !app_assoc. reflexivity. }
  rewrite NT in *. assert (SB : sub F x (x + length (dec num)) = dec num).
  { rewrite E. unfold object_text. rewrite <- !app_assoc. apply sub_app_exact; lia. }
  rewrite SB. assert (NB : beqb (dec num) W_trailer = false).
  { destruct (beqb (dec num) W_trailer) eqn:Q; auto. exfalso. apply beqb_eq in Q. assert (I : In 116 (dec num)) by (rewrite Q; left; reflexivity).
    exact (dec_not 116 num N0 (or_intror eq_refl) I). }
  rewrite NB. destruct (next_token F (x + length (dec num))) as [[a1 b1] c1]. destruct (next_token F b1) as [[a2 b2] c2]. destruct (next_token F b2) as [[a3 b3] c3]. rewrite O. reflexivity.
Qed.

Lemma stream_newsec F R x pre txt t t1 elems nf num : zlib_ok -> let x0 := Z.of_nat (length pre) in let el := elems ++ [mk_xe false num 0 (Some x0) None] in
  format_xref_stream el t nf num = Ok (txt, t1) -> wfv (PDict t) -> plain_filter t -> dget K_XRefStm t = None -> dget K_Prev t = Some (PInt x) ->
  F ++ R = (pre ++ txt) ++ tail_text (length pre) -> blen F < x0 -> (100 <= length (F ++ R))%nat -> blen (F ++ R) < 10 ^ 10 ->
  dget K_Length t1 <> Some (PInt 1) -> (forall a e, F ++ R = a ++ e ++ stream_end (length pre) -> dget K_Length t1 = Some (PInt (blen e + 1)) -> clean e) -> 0 < num ->
  (forall e, In e elems -> e = mk_xe true 0 65534 None None \/ exists i z w, 0 < i /\ i <> num /\ e = mk_xe false i 0 (Some z) None /\ good (F ++ R) i z w /\ blen F < z < x0) ->
  (exists e, In e elems /\ e <> mk_xe true 0 65534 None None) ->
  wfv (PDict t1) /\ (forall k, ~ K_own k -> dget k t1 = dget k t) /\ newsec F R x (length pre) (stream_head x0 num) (flat_map indexed_entry el) (rvd t1).
Proof.
  intros ZO x0 el FX W PF NS NP EF LF L1 L2 L0 CL N0 KIND (en & IN & EN). set (out := F ++ R) in *.
  destruct (xstream_written _ _ _ _ _ _ ZO FX W PF) as (_ & _ & c & enc & d' & lines & v & _ & KE & KT & PQ & ENC & -> & W1 & PF1 & DE & LE & SE & TX & _ & _ & RD).
  assert (NE : enc <> []) by (intros ->; apply L0; rewrite LE; reflexivity).
  destruct (dict_text _ _ _ _ SE NE) as (w & EV).
  destruct (CL (pre ++ dec num ++ [32] ++ dec 0 ++ [32] ++ W_objkw ++ [10] ++ w) enc) as (_ & C1 & C2).
  { rewrite EF, TX, EV. unfold stream_end. rewrite <- !app_assoc. do 9 f_equal. }
  { rewrite LE. reflexivity. }
  assert (XF : (length pre < length out)%nat). { rewrite EF, !app_length. pose proof (tail_length (length pre)). lia. }
  assert (GX : good out num x0 (PStream (rvd t1) (Some c) (Some enc))).
  { split; [discriminate|]. destruct (valtxt_stream t1 (Some c) enc W1 NE C1 C2 (plain_notdict _ PF1) DE) as (v' & VT).
    assert (v' = v) by (destruct VT as (E & _); pose proof (eq_trans (eq_sym E) SE) as Q; injection Q; auto). subst v'.
    exists (PStream t1 (Some c) (Some enc)), v. split; [exact VT|]. exists pre, (tail_text (length pre)). split; [|reflexivity].
    rewrite EF, TX. unfold object_text. rewrite <- !app_assoc. reflexivity. }
  assert (G : forall k, ~ K_own k -> dget k (rvd t1) = option_map rv (dget k t)). { intros k N. rewrite dget_rvd by (apply wfv_nodup; auto). now rewrite KE. }
  assert (ES : forall e, In e (flat_map indexed_entry el) -> exists n z w, e = direct_entry n z /\ 0 < n /\ good out n z w /\ blen F < z <= x0).
  { intros e I. apply in_flat_map in I as (y & J & I). apply in_app_or in J as [J|[<-|[]]].
    - destruct (KIND y J) as [->|(i & z & w' & P1 & P2 & -> & P3 & P4)]; [destruct I|]. unfold indexed_entry in I. cbn [xe_cnt xe_free xe_num xe_env orb] in I. replace (i =? 0) with false in I by lia. destruct I as [<-|[]]. exists i, z, w'. split; [reflexivity|]. split; auto. split; [auto|lia].
    - unfold indexed_entry in I. cbn [xe_cnt xe_free xe_num xe_env orb] in I. replace (num =? 0) with false in I by lia. destruct I as [<-|[]]. exists num, x0. eexists. split; [reflexivity|]. split; auto. split; [exact GX|lia]. }
  assert (NXS : ~ K_own K_XRefStm) by (intros [Q|[Q|[Q|Q]]]; discriminate). assert (NPV : ~ K_own K_Prev) by (intros [Q|[Q|[Q|Q]]]; discriminate).
  split; [exact W1|]. split; [exact KE|]. constructor.
  - exists pre, txt. split; auto. split; [rewrite app_assoc; exact EF|]. unfold blen, x0 in LF. lia.
  - intros post last startx A1 A2. fold out. destruct (RD NE C1 C2 pre (tail_text (length pre) ++ post)) as (_ & RS).
    assert (EO : out ++ post = pre ++ txt ++ tail_text (length pre) ++ post) by (rewrite EF, <- !app_assoc; reflexivity). rewrite <- EO in RS. fold x0.
    destruct (single_at (out ++ post) (length pre) (last - x0)) as (n0 & R0); [rewrite app_length; lia|unfold x0; lia|].
    destruct (single_at (out ++ post) (length pre) (startx - x0)) as (n1 & R1); [rewrite app_length; lia|unfold x0; lia|].
    exact (RS (PvSingle (out ++ post)) x0 last startx (tail_text (length pre) ++ post) n0 n1 ltac:(rewrite <- EO; exact R0) R1).
  - exists x0. split; [reflexivity|]. split; [fold out; unfold blen, x0 in *; lia|]. fold out. unfold x0. rewrite Nat2Z.id. eapply trailer_object; [|exact GX]. lia.
  - split; [apply wfv_rvd; auto|]. unfold int_entry. rewrite !G, NS, NP by auto. cbn [option_map rv]. split; [reflexivity|]. split; [reflexivity|]. reflexivity.
  - repeat split; reflexivity.
  - apply Forall_forall. intros e I. destruct (ES e I) as (n & z & w' & -> & A1 & A2 & A3). split; [cbn; lia|]. split; [reflexivity|]. split; [reflexivity|]. exists z. split; [split; reflexivity|]. fold out. unfold blen, x0 in *. lia.
  - intros e I. destruct (ES e I) as (n & z & w' & -> & A1 & A2 & A3). exists z, w'. split; [reflexivity|exact A2].
  - destruct (KIND en IN) as [Q|(i & z & w' & P1 & P2 & -> & P3 & P4)]; [congruence|]. exists (direct_entry i z). split; [|cbn; congruence].
    apply in_flat_map. eexists. split; [apply in_or_app; left; exact IN|]. unfold indexed_entry. cbn [xe_cnt xe_free xe_num xe_env orb]. replace (i =? 0) with false by lia. left. reflexivity.
  - split; [unfold blen, x0 in LF; lia|]. auto.
Qed.

(* what an update appends to a file: the section, and the objects of the changes *)
Record appended (F R : bytes) (x : Z) (x0 : option Z) (t1 : dict) (cache : list obj) (nums : list Z) (xs : nat) (h : ient) (es : list ient) (tr : dict) : Prop := mk_appended {
  ap_sec : newsec F R x xs h es tr;
  ap_nodup : NoDup (map n_num es);
  ap_nums : forall e, In e es -> In (n_num e) nums \/ x0 = Some (n_num e);
  ap_new : forall n, In n nums -> exists e z o w, In e es /\ n_num e = n /\ direct_at e z /\ n_del e = false /\ blen F < z /\ cell cache n o /\ good (F ++ R) n z w /\ peq o w;
  ap_trailer : exists tw, wfv (PDict tw) /\ tr = rvd tw /\ forall k, x0 = None \/ ~ K_own k -> dget k tw = dget k t1
}.
Lemma appended_table F R x t1 row cache chg ni cache' : (5 <= length F)%nat -> build_revision_byte_stream chg row cache (blen F) None = Ok (R, ni, cache') ->
  cell cache 0 (PDict t1) -> wfv (PDict t1) -> dget K_XRefStm t1 = None -> 0 < x -> dget K_Prev t1 = Some (PInt x) -> NoDup (map chg_num chg) -> chg <> [] ->
  (forall c, In c chg -> snd c <> Del /\ 0 < chg_num c /\ exists e o, cell row (chg_num c) (SDict e) /\ n_gen e = 0 /\ n_env e = None /\ cell cache (chg_num c) o /\ savable o) ->
  (exists e0, cell row 0 (SDict e0) /\ n_env e0 = None) -> blen (F ++ R) < 10 ^ 10 ->
  exists xs h es tr, appended F R x None t1 cache (map chg_num chg) xs h es tr.
Proof.
  intros LF BR C0 W NS X0 NP ND NE CC Z0 BL. set (fake := mk_sect (Z.to_nat x) [] [] [] []).
  destruct (revision_table F [fake] row cache t1 chg R ni cache' LF BR) as (s & body & OK & SX & EFR & ST & NEE & L100 & _ & _ & UN & CHD & _); auto.
  { rewrite NP. cbn [fake s_x]. rewrite Z2Nat.id by lia. reflexivity. }
  assert (ENT : forall e, In e (entries s) -> In (n_num e) (map chg_num chg)).
  { intros e I. destruct (in_dec Z.eq_dec (n_num e) (map chg_num chg)) as [Y|Y]; auto. destruct (UN _ Y) as [Q _]. exfalso. unfold entry_of in Q. pose proof (find_none _ _ Q e I) as Q2. cbn in Q2. lia. }
  assert (NEWE : forall n, In n (map chg_num chg) -> exists z o w, In (table_entry n z) (entries s) /\ blen F < z /\ cell cache n o /\ good (F ++ R) n z w /\ peq o w).
  { intros n I. destruct (CHD n I) as (e & z & y & o & _ & _ & CO & G & PQ & ZB & EN). exists z, o, (rvs o). unfold entry_of in EN. apply List.find_some in EN as [EN _]. split; auto. split; [lia|]. auto. }
  assert (GD : forall e, In e (entries s) -> exists z w, n_pos e = Some (AInt z) /\ good (F ++ R) (n_num e) z w).
  { intros e I. destruct (NEWE _ (ENT e I)) as (z & o & w & I2 & _ & _ & G & _). exists z, w. split; auto.
    assert (QE : e = table_entry (n_num e) z); [|rewrite QE at 1; reflexivity]. pose proof (filter_one (n_num e) (entries s) e (entries_nodup _ _ _ OK) I eq_refl) as Q1. rewrite (filter_one (n_num e) (entries s) (table_entry (n_num e) z) (entries_nodup _ _ _ OK) I2 eq_refl) in Q1. congruence. }
  destruct (table_newsec F R x s body fake) as (h & _ & NS'); auto; [cbn [fake s_x]; lia|].
  exists (s_x s), h, (entries s), (rvd (s_tr s)). constructor; auto.
  - exact (entries_nodup _ _ _ OK).
  - intros n I. destruct (NEWE n I) as (z & o & w & A1 & A2 & A3 & A4 & A5). exists (table_entry n z), z, o, w. split; auto. split; [reflexivity|]. split; [split; reflexivity|]. split; [reflexivity|]. auto.
  - exists (s_tr s). rewrite ST. auto.
Qed.

Lemma appended_stream F R x t1 row cache chg ni cache' k : zlib_ok -> build_revision_byte_stream chg row cache (blen F) (Some k) = Ok (R, ni, cache') ->
  cell cache 0 (PDict t1) -> wfv (PDict t1) -> plain_filter t1 -> dget K_XRefStm t1 = None -> dget K_Prev t1 = Some (PInt x) -> NoDup (map chg_num chg) -> chg <> [] ->
  (forall c, In c chg -> snd c <> Del /\ 0 < chg_num c /\ exists e o, cell row (chg_num c) (SDict e) /\ n_gen e = 0 /\ n_env e = None /\ cell cache (chg_num c) o /\ savable o) ->
  (exists e0, cell row 0 (SDict e0) /\ n_env e0 = None /\ n_xt e0 = None) -> 0 < k -> ~ In k (map chg_num chg) -> 100 <= blen F -> blen (F ++ R) < 10 ^ 10 ->
  (forall t3 pe z l, cell cache' 0 (PDict t3) -> cell ni 0 (SDict pe) -> prev_pos pe = PInt z -> dget K_Length t3 = Some (PInt l) ->
     l <> 1 /\ forall a e, F ++ R = a ++ e ++ file_end z -> l = blen e + 1 -> clean e) ->
  exists xs h es tr, appended F R x (Some k) t1 cache (map chg_num chg) xs h es tr.
Proof.
  intros ZO BR C0 W PF NS NP ND NE CC (e0 & Z0 & ZE & ZX) K NK L100 BL CL.
  destruct (revision_stream F row cache t1 chg R ni cache' k BR C0 ND NE K NK CC ltac:(eauto)) as (pre & txt & t2 & elems & H). cbv zeta in H.
  destruct H as (EF & LP & FX & C3 & NDE & KIND & INL & _ & (e0' & nx & Z0' & NI0)). pose proof (cell_fun _ _ _ _ Z0' Z0) as Q. injection Q as ->.
  set (x0 := Z.of_nat (length pre)) in *. set (el := elems ++ [mk_xe false k 0 (Some x0) None]) in *.
  assert (PP : prev_pos (with_next nx (with_pos (Some (AInt x0)) (with_xs (Some x0) e0))) = PInt x0).
  { unfold prev_pos. change (n_xt (with_next nx (with_pos (Some (AInt x0)) (with_xs (Some x0) e0)))) with (n_xt e0). rewrite ZX. reflexivity. }
  assert (FE : file_end x0 = stream_end (length pre)) by reflexivity.
  assert (POS : forall i, In i (map chg_num chg) -> 0 < i) by (intros i I; apply in_map_iff in I as (c & <- & I); apply CC; auto).
  destruct chg as [|c0 chg0] eqn:EC; [congruence|]. rewrite <- EC in *. assert (IN0 : In (chg_num c0) (map chg_num chg)) by (rewrite EC; left; auto).
  destruct (stream_newsec F R x pre txt t1 t2 elems (circular_deleted chg) k) as (W2 & KE & SEC); auto.
  { unfold blen, x0 in *. lia. }
  { rewrite app_length. unfold blen in *. lia. }
  { intro Q. destruct (CL _ _ _ _ C3 NI0 PP Q) as [X _]. auto. }
  { intros a e Q1 Q2. rewrite <- FE in Q1. destruct (CL _ _ _ _ C3 NI0 PP Q2) as [_ X]. eapply X; eauto. }
  { intros e I. destruct (KIND e I) as [->|(i & z & o & A1 & A2 & A3 & A4 & A5 & A6)]; [left; auto|right]. exists i, z, (rvs o). split; auto. split; [congruence|]. auto. }
  { destruct (INL _ IN0) as (e & I & N). exists e. split; auto. intros ->. cbn [xe_num] in N. specialize (POS _ IN0). lia. }
  assert (NDL : NoDup (map xe_num el)).
  { unfold el. rewrite map_app. apply (Permutation_NoDup (Permutation_app_comm (map xe_num [mk_xe false k 0 (Some x0) None]) (map xe_num elems))). cbn [map app xe_num]. constructor; auto. intro I. apply in_map_iff in I as (e & Q & I).
    destruct (KIND e I) as [->|(i & z & o & A1 & -> & _)]; cbn [xe_num] in Q; [lia|congruence]. }
  exists (length pre), (stream_head x0 k), (flat_map indexed_entry el), (rvd t2). constructor; auto.
  - apply indexed_nodup. auto.
  - intros e I. apply in_flat_map in I as (y & J & I). pose proof (indexed_in _ _ I) as N. apply in_app_or in J as [J|[<-|[]]]; [|right; rewrite N; reflexivity].
    destruct (KIND y J) as [->|(i & z & o & A1 & -> & _)]; [destruct I|left]. rewrite N. exact A1.
  - intros n I. destruct (INL n I) as (e & J & N). destruct (KIND e J) as [->|(i & z & o & A1 & -> & A3 & A4 & A5 & A6)]; [specialize (POS _ I); cbn [xe_num] in N; lia|]. cbn [xe_num] in N. subst i.
    exists (direct_entry n z), z, o, (rvs o). split; [|split; [reflexivity|split; [split; reflexivity|split; [reflexivity|split; [lia|auto]]]]].
    apply in_flat_map. exists (mk_xe false n 0 (Some z) None). split; [apply in_or_app; auto|]. unfold indexed_entry. cbn [xe_cnt xe_free xe_num xe_env orb]. specialize (POS _ I). replace (n =? 0) with false by lia. left. reflexivity.
  - exists t2. split; auto. split; auto. intros k0 [Q|Q]; [discriminate|auto].
Qed.

(* ---------- the document read again ---------- *)
Lemma cell_same F R cs k c c3 : sectioned F cs ->
  (forall s e p, In s cs -> In e (tl s) -> 0 < n_num e -> direct_at e p -> object_read (F ++ R) (Z.to_nat p) = object_read F (Z.to_nat p)) ->
  0 < k -> matches (history k 0 [] (rev cs)) c -> matches (history k 0 [] (rev cs)) c3 -> (c = SNone /\ c3 = SNone) \/ exists e e3, c = SDict e /\ c3 = SDict e3 /\ n_del e = n_del e3 /\ n_env e = n_env e3 /\
    (n_env e = None -> parse_at (PvSingle (F ++ R)) e3 = parse_at (PvSingle F) e).
Proof.
  intros SC OB K M1 M. destruct (history k 0 [] (rev cs)) as [|[v e1] hh] eqn:HE; [left; auto|]. destruct M as (e3 & -> & K3). destruct M1 as (e & -> & K1). right. exists e, e3. split; auto. split; auto.
  destruct K3 as (_ & _ & V1 & D1 & _ & _ & _ & P1). destruct K1 as (_ & _ & V2 & D2 & _ & _ & _ & P2). split; [congruence|]. split; [congruence|]. intro EV.
  assert (I : In (v, e1) (history k 0 [] (rev cs))) by (rewrite HE; left; auto). apply history_in in I as [[]|(j & s & J & _ & I & NN)]. assert (IS : In s cs) by (apply in_rev; eapply nth_error_In; eauto).
  destruct (sc_entry _ _ SC s e1 IS) as (_ & _ & [(z & DZ & ZB)|(env & off & Q & _)]); [destruct s; [destruct I|right; auto]| |congruence].
  destruct (P1 z DZ) as (Q1 & x1 & N1 & L1). destruct (P2 z DZ) as (Q2 & x2 & N2 & L2). rewrite (parse_single F e z x2), (parse_single (F ++ R) e3 z x1) by (auto; rewrite blen_app; unfold blen in *; lia). eapply OB; eauto. lia.
Qed.

Lemma edition_provider l q re t dx y x0 d row p : edition l q re t (dx ++ [y; mk_datum None None (Some p)]) p x0 d row -> provider d p.
Proof. intros E. exists (dx ++ [y]), (mk_datum None None (Some p)). rewrite (ed_data _ _ _ _ _ _ _ _ _ E), <- app_assoc. split; reflexivity. Qed.

Lemma loaded_matches d F cs x t nb q e0 : loaded d F cs x t nb q e0 -> forall k c, 0 < k -> cell q k c -> matches (history k 0 [] (rev cs)) c.
Proof.
  intros L k c K C. destruct (ld_len _ _ _ _ _ _ _ _ L) as (NB & LQ & _). pose proof (cell_range _ _ _ C). destruct (ld_cells _ _ _ _ _ _ _ _ L k ltac:(lia)) as (c' & C' & M). now rewrite (cell_fun _ _ _ _ C C').
Qed.

Lemma read_again F R cs q l re t dx y x0 d1 row nums xk d3 cs3 x3 t3 nb3 q3 e3 : sectioned F cs -> calm q ->
  (forall k c, 0 < k -> cell q k c -> matches (history k 0 [] (rev cs)) c) ->
  edition l q re t (dx ++ [y; mk_datum None None (Some (PvSingle F))]) (PvSingle F) x0 d1 row ->
  (forall s e p, In s cs -> In e (tl s) -> 0 < n_num e -> direct_at e p -> object_read (F ++ R) (Z.to_nat p) = object_read F (Z.to_nat p)) ->
  (forall n, In n nums <-> 0 < n /\ exists e, cell row n (SDict e) /\ n_pos e = None) ->
  loaded d3 (F ++ R) cs3 x3 t3 nb3 q3 e3 -> sectioned (F ++ R) cs3 ->
  (forall n, 0 < n -> ~ In n nums -> xk <> Some n -> history n 0 [] (rev cs3) = history n 0 [] (rev cs)) ->
  (forall k, xk = Some k -> (forall n e, 0 < n -> cell q n (SDict e) -> n_env e <> Some k) /\ (forall e, cell q k (SDict e) -> n_env e = None) /\ forall e, cell q3 k (SDict e) -> n_env e = None) ->
  (forall n, In n nums -> exists v e h z w o, history n 0 [] (rev cs3) = (v, e) :: h /\ direct_at e z /\ n_del e = false /\ object_read (F ++ R) (Z.to_nat z) = Ok w /\ w <> PNone /\ cell (d_cache d1) n o /\ peq o w) ->
  length q3 = length row ->
  coherent d3 /\ forall n, 0 < n -> xk <> Some n -> match value d1 n with Ok v => exists w, value d3 n = Ok w /\ peq v w | r => value d3 n = r end.
Proof.
  intros SC CQ MQ E OB NU L SC3 HS XK HN LQ. pose proof (loaded_matches _ _ _ _ _ _ _ _ L) as M3. destruct (ld_len _ _ _ _ _ _ _ _ L) as (NB3 & LQ3 & LC3).
  pose proof (edition_provider _ _ _ _ _ _ _ _ _ _ E) as PR. pose proof (edition_open _ _ _ _ _ _ _ _ _ E) as OR.
  destruct (loaded_calm _ _ _ _ _ _ _ _ L SC3) as [CQ3 _].
  destruct (ld_index _ _ _ _ _ _ _ _ L) as (l3 & re3 & I3 & _ & RE3 & _). set (row3 := SDict re3 :: skipn 1 q3) in *.
  assert (O3 : open_row d3 row3) by (exists (l3 ++ [q3]); rewrite I3, <- app_assoc; reflexivity).
  assert (P3 : provider d3 (PvSingle (F ++ R))).
  { destruct (ld_data _ _ _ _ _ _ _ _ L) as (dx3 & D3 & _). eexists (dx3 ++ [_]), _. rewrite D3, <- app_assoc. split; reflexivity. }
  assert (CR3 : forall k y, 0 < k -> cell row3 k y <-> cell q3 k y) by (intros k z K; apply cell_cons_skip; [pose proof (ld_head _ _ _ _ _ _ _ _ L) as (C0 & _); apply cell_range in C0; lia|auto]).
  destruct (ed_len _ _ _ _ _ _ _ _ _ E) as [LR1 LR2].
  (* numbers that are not written *)
  assert (OLD : forall n s, 0 < n -> ~ In n nums -> cell row n s -> cell q n s).
  { intros n s N NI C. destruct (ed_cells _ _ _ _ _ _ _ _ _ E n s N C) as (o & _ & [[D _]|(e & -> & NP & _)]); auto. exfalso. apply NI, NU. split; auto. exists e. auto. }
  assert (SAME : forall n s, 0 < n -> ~ In n nums -> xk <> Some n -> cell row n s -> exists s3, cell q3 n s3 /\ ((s = SNone /\ s3 = SNone) \/ exists e e3, s = SDict e /\ s3 = SDict e3 /\ n_del e = n_del e3 /\ n_env e = n_env e3 /\
    (n_env e = None -> parse_at (PvSingle (F ++ R)) e3 = parse_at (PvSingle F) e))).
  { intros n s N NI NK C. pose proof (cell_range _ _ _ C) as RN. destruct (pyget_range q3 n ltac:(lia)) as [s3 C3]. exists s3. split; auto.
    apply (cell_same F R cs n); auto. rewrite <- (HS n N NI NK). apply M3; auto. }
  assert (NEWQ : forall n e, cell q n (SDict e) -> cell row n (SDict e) -> 0 < n -> ~ In n nums).
  { intros n e C1 C2 N I. apply NU in I as (_ & e' & C' & NP). pose proof (cell_fun _ _ _ _ C2 C') as Q. injection Q as <-. destruct (CQ n _ N C1) as [Q|(e' & Q & _ & NQ)]; [discriminate|]. injection Q as <-. congruence. }
  assert (ENVN : forall n e3', 0 < n -> cell q3 n (SDict e3') -> n_env e3' <> None -> ~ In n nums).
  { intros n e3' N C3 EV I. destruct (HN n I) as (v & e & h & z & w & o & HE & (D1 & _) & _). pose proof (M3 n _ N C3) as M. rewrite HE in M. destruct M as (e' & Q & _ & _ & K & _). injection Q as <-. congruence. }
  assert (CACHE : forall n, 0 <= n < Z.of_nat (length q3) -> n <> 0 -> cell (d_cache d3) n PNone).
  { intros n RN N0. destruct (pyget_range (d_cache d3) n ltac:(lia)) as [o C]. pose proof (ld_cache _ _ _ _ _ _ _ _ L n o ltac:(lia) C) as ->. exact C. }
  assert (CO : coherent d3).
  { intros row' p' O' P' n e c C D EV. assert (row' = row3) by (apply (open_fun d3); auto). assert (p' = PvSingle (F ++ R)) by (apply (provider_fun d3); auto). subst row' p'.
    assert (NP : 0 < n). { destruct (Z.eq_dec n 0) as [->|]; [|pose proof (cell_range _ _ _ C); lia]. destruct C as [_ C]. cbn in C. injection C as <-. congruence. }
    apply CR3 in C; [|auto]. assert (NI : ~ In n nums) by (apply (ENVN n e); auto; congruence). assert (NK : xk <> Some n) by (intro Q; destruct (XK n Q) as (_ & _ & X); rewrite (X e C) in EV; discriminate). pose proof (cell_range _ _ _ C) as RN.
    destruct (pyget_range row n ltac:(lia)) as [s CR]. destruct (SAME n s NP NI NK CR) as (s3 & C3 & SM). pose proof (cell_fun _ _ _ _ C C3) as <-.
    destruct SM as [[_ Q]|(e1 & e2 & -> & Q & DD & VV & _)]; [discriminate|]. injection Q as <-.
    destruct (ed_env _ _ _ _ _ _ _ _ _ E n e1 c CR) as (C0 & _ & sc & CQ1 & CR1); [congruence|].
    destruct (ed_coh _ _ _ _ _ _ _ _ _ E row (PvSingle F) OR PR n e1 c CR) as (ce & sd & st & en & ll & _ & CCE & CD & CEV & PA & PO & _ & FA); [congruence|congruence|].
    pose proof (cell_fun _ _ _ _ CR1 CCE) as ->. assert (NC : ~ In c nums) by (apply (NEWQ c ce); auto).
    assert (XC : xk <> Some c) by (intro Q; destruct (XK c Q) as (X & _); destruct (ed_env _ _ _ _ _ _ _ _ _ E n e1 c CR ltac:(congruence)) as (_ & Y & _); apply (X n e1 NP Y); congruence).
    destruct (SAME c _ C0 NC XC CCE) as (s3 & CC3 & [[Q _]|(e4 & ce3 & Q & -> & DD' & VV' & PP)]); [discriminate|]. injection Q as <-.
    pose proof (cell_range _ _ _ CC3) as RC. exists ce3, sd, st, en, ll. split; auto. split; [apply CR3; auto|]. split; [congruence|]. split; [congruence|]. split; [rewrite PP by auto; exact PA|]. split; auto.
    split; [left; apply CACHE; lia|]. eapply Forall_impl; [|exact FA]. intros x (m & ne & v & X1 & X2 & X3 & X4 & X5 & _).
    destruct (ed_env _ _ _ _ _ _ _ _ _ E m ne c X3 X5) as (_ & Y1 & _). assert (NM : ~ In m nums) by (apply (NEWQ m ne); auto). assert (XM : xk <> Some m) by (intro Q; destruct (XK m Q) as (_ & X & _); rewrite (X ne Y1) in X5; discriminate).
    destruct (SAME m _ X2 NM XM X3) as (s3 & CM & [[Q _]|(e5 & ne3 & Q & -> & DM & VM & _)]); [discriminate|]. injection Q as <-. pose proof (cell_range _ _ _ CM).
    exists m, ne3, PNone. split; auto. split; auto. split; [apply CR3; auto|]. split; [congruence|]. split; [congruence|]. split; [apply CACHE; lia|auto]. }
  split; auto. intros n N NK.
  assert (V3 : value d3 n = stored q3 (PvSingle (F ++ R)) n).
  { rewrite (value_is d3 n row3 (PvSingle (F ++ R)) O3 P3 CO) by lia. unfold value_of, stored.
    destruct (Z_lt_ge_dec n (Z.of_nat (length q3))) as [RN|RN].
    - destruct (pyget_range q3 n ltac:(lia)) as [s3 C3]. pose proof C3 as C3'. apply CR3 in C3'; [|auto]. rewrite (proj2 (pyget_cell q3 n _ ltac:(lia)) C3), (proj2 (pyget_cell row3 n _ ltac:(lia)) C3'). cbn [bind].
      rewrite (proj2 (pyget_cell _ n _ ltac:(lia)) (CACHE n ltac:(lia) ltac:(lia))). destruct (CQ3 n s3 N C3) as [->|(e & -> & DE & _)]; [reflexivity|]. cbn [deleted_in bind]. rewrite DE. cbn [is_none].
      unfold disk. rewrite (proj2 (pyget_cell q3 n _ ltac:(lia)) C3), (proj2 (pyget_cell row3 n _ ltac:(lia)) C3'). cbn [bind]. replace (n =? 0) with false by lia. destruct (n_env e) as [c|] eqn:EV; [|reflexivity].
      destruct (CO row3 _ O3 P3 n e c C3' DE EV) as (ce & _ & _ & _ & _ & C0 & CCE & _). pose proof CCE as CCE'. apply CR3 in CCE; [|auto].
      rewrite (proj2 (pyget_cell q3 c _ ltac:(lia)) CCE), (proj2 (pyget_cell row3 c _ ltac:(lia)) CCE'). reflexivity.
    - rewrite (pyget_bad q3) by lia. rewrite (pyget_bad row3) by (unfold row3; cbn [length]; rewrite skipn_length; lia). reflexivity. }
  rewrite V3. destruct (in_dec Z.eq_dec n nums) as [I|NI].
  - destruct (HN n I) as (v & e & h & z & w & o & HE & DZ & DE & OW & NW & CO1 & PQ). pose proof I as I'. apply NU in I' as (_ & er & CR & NP).
    destruct (value_new _ _ _ _ _ _ _ _ _ n er E CQ PR N CR NP) as (o' & CO' & _ & V1). pose proof (cell_fun _ _ _ _ CO' CO1) as ->. rewrite V1. exists w. split; auto.
    pose proof (cell_range _ _ _ CR). destruct (pyget_range q3 n ltac:(lia)) as [s3 C3]. pose proof (M3 n s3 N C3) as M. rewrite HE in M. destruct M as (e' & -> & K1 & _ & K2 & K3 & _ & _ & _ & K4).
    destruct (K4 z DZ) as (Q1 & x1 & N1 & LX). unfold stored. rewrite (proj2 (pyget_cell q3 n _ ltac:(lia)) C3). cbn [bind deleted_in]. unfold disk. rewrite (proj2 (pyget_cell q3 n _ ltac:(lia)) C3). cbn [bind]. replace (n =? 0) with false by lia.
    rewrite K2, (proj1 DZ). assert (ZB : 0 <= z < blen (F ++ R)).
    { assert (IH : In (v, e) (history n 0 [] (rev cs3))) by (rewrite HE; left; auto). apply history_in in IH as [[]|(j & s & J & _ & IE & _)]. destruct (sc_entry _ _ SC3 s e) as (_ & _ & [(z' & (_ & D') & ZB)|(env & off & Q & _)]); [apply in_rev; eapply nth_error_In; eauto|destruct s; [destruct IE|right; auto]| |destruct DZ; congruence]. destruct DZ as [_ DZ]. assert (z = z') by congruence. lia. }
    rewrite (parse_single (F ++ R) e' z x1) by auto. exact OW.
  - assert (EQ : value d1 n = stored q3 (PvSingle (F ++ R)) n); [|rewrite <- EQ; destruct (value d1 n); auto; eexists; split; [reflexivity|apply peq_refl]].
    destruct (Z_lt_ge_dec n (Z.of_nat (length row))) as [RN|RN].
    + destruct (pyget_range row n ltac:(lia)) as [s CR]. pose proof (OLD n s N NI CR) as CQ0. rewrite (value_old _ _ _ _ _ _ _ _ _ n s E CQ PR N CR CQ0). symmetry. pose proof (cell_range _ _ _ CQ0).
      apply (stored_same F R cs q q3 n); auto; try lia.
      * intros c C3. rewrite <- (HS n N NI NK). auto.
      * intros e env Ce EV. pose proof (cell_fun _ _ _ _ Ce CQ0) as <-. destruct (ed_env _ _ _ _ _ _ _ _ _ E n e env CR EV) as (C0 & _ & sc & CQ1 & CR1). pose proof (cell_range _ _ _ CQ1).
        destruct (CQ n _ N Ce) as [Q|(e' & Q & DE & _)]; [discriminate|]. injection Q as <-.
        destruct (ed_coh _ _ _ _ _ _ _ _ _ E row (PvSingle F) OR PR n e env CR DE EV) as (ce & _ & _ & _ & _ & _ & CCE & _ & CEV & _). pose proof (cell_fun _ _ _ _ CR1 CCE) as ->.
        split; [lia|]. split; [|intros e' C'; pose proof (cell_fun _ _ _ _ C' CQ1) as Q; injection Q as ->; auto]. intros c C3. rewrite <- (HS env C0); [auto|apply (NEWQ env ce); auto|]. intro Q. destruct (XK env Q) as (X & _). exact (X n e N Ce EV).
    + rewrite (value_is d1 n row (PvSingle F) OR PR (ed_coh _ _ _ _ _ _ _ _ _ E)) by lia. unfold value_of, stored. rewrite (pyget_bad row), (pyget_bad q3) by lia. reflexivity.
Qed.

(* ---------- a cycle: load, edit, write, load ---------- *)
Lemma chrono_mono f p r : xref_chrono f p = Ok r -> xref_chrono (S f) p = Ok r.
Proof.
  unfold xref_chrono. intro E. destruct (read_at p (-100) (-1)) as [[[t a0] n0]| |]; cbn [bind] in *; try discriminate. destruct (next_token t _) as [[i j] k].
  destruct (of_opt _ _) as [xp| |]; cbn [bind] in *; try discriminate. destruct (read_section _ _ _ _) as [[[xi tr] t']| |]; cbn [bind] in *; try discriminate.
  destruct (int_entry K_XRefStm tr) as [s| |]; cbn [bind] in *; try discriminate. destruct (int_entry K_Prev tr) as [q| |]; cbn [bind] in *; try discriminate.
  destruct (xref_chain f p t' q s) as [rest| |] eqn:C; cbn [bind] in *; try discriminate. rewrite (chain_mono f _ _ _ _ _ C). cbn [bind]. exact E.
Qed.
Lemma lasting_mono f F cs cs' x t : lasting f F cs cs' x t -> lasting (S f) F cs cs' x t.
Proof.
  intros [[R1 R2 R3 R4 R5 R6] A G O]. constructor; auto; [constructor; auto; now apply chrono_mono|]. intro X. apply chain_mono. auto.
Qed.

Lemma ddel_none k t : dget k t = None -> dhas k t = false.
Proof. intro E. unfold dhas. now rewrite E. Qed.
Lemma opening_other e t k : k <> K_Prev -> k <> K_XRefStm -> dget k (opening_trailer e t) = dget k t.
Proof. intros N1 N2. unfold opening_trailer. destruct (dhas _ _); [rewrite dget_ddel_neq by auto|]; apply dget_dset_neq; auto. Qed.
Lemma opening_prev e t : dget K_Prev (opening_trailer e t) = Some (prev_pos e).
Proof. unfold opening_trailer. destruct (dhas _ _); [rewrite dget_ddel_neq by discriminate|]; apply dget_dset_eq. Qed.
Lemma opening_stm e t : dget K_XRefStm t = None -> dget K_XRefStm (opening_trailer e t) = None.
Proof. intro E. unfold opening_trailer. rewrite ddel_none; rewrite dget_dset_neq by discriminate; auto. Qed.
Lemma opening_same e e' t : prev_pos e = prev_pos e' -> opening_trailer e t = opening_trailer e' t.
Proof. intro E. unfold opening_trailer. now rewrite E. Qed.
Lemma closing_other x0 n t k : k <> K_Size -> k <> K_DecodeParms -> dget k (closing_trailer x0 n t) = dget k t.
Proof. intros N1 N2. unfold closing_trailer. rewrite dget_dset_neq by auto. destruct (_ && _); auto. apply dget_ddel_neq. auto. Qed.
Lemma closing_none n t : closing_trailer None n t = dset K_Size (PInt n) t.
Proof. reflexivity. Qed.
Lemma closing_parms k n t : 0 < k -> one_filter t -> dget K_DecodeParms (closing_trailer (Some k) n t) = None.
Proof.
  intros K ([P|(v & P & T)] & _); unfold closing_trailer; rewrite dget_dset_neq by discriminate; change K_DecodeParms' with K_DecodeParms; rewrite P.
  - rewrite andb_false_r. exact P.
  - rewrite T. cbn [truthy]. replace (k =? 0) with false by lia. cbn [negb andb]. clear. induction t as [|[k' v'] t IH]; [reflexivity|]. unfold ddel in *. cbn [filter fst]. destruct (beqb K_DecodeParms k') eqn:E; cbn [negb]; [exact IH|]. cbn [dget]. rewrite E. exact IH.
Qed.
Lemma closing_wfv x0 n t : wfv (PDict t) -> wfv (PDict (closing_trailer x0 n t)).
Proof. intro W. unfold closing_trailer. apply wfv_dset; [|apply name_ok; reflexivity|constructor]. destruct (_ && _); auto. now apply wfv_drop. Qed.
Lemma opening_wfv e t x : prev_pos e = PInt x -> wfv (PDict t) -> wfv (PDict (opening_trailer e t)).
Proof. intros P W. unfold opening_trailer. rewrite P. assert (W1 : wfv (PDict (dset K_Prev (PInt x) t))) by (apply wfv_dset; [auto|apply name_ok; reflexivity|constructor]). destruct (dhas _ _); auto. now apply wfv_drop. Qed.
Lemma one_plain t : one_filter t -> dget K_DecodeParms t = None -> plain_filter t.
Proof.
  intros (_ & [F|(n & F & I)]) P; [left; auto|right]. exists n. split; [split; auto|]. destruct I as [<-|[<-|[<-|[]]]]; auto.
Qed.
Lemma one_get t t' : one_filter t -> dget K_DecodeParms t' = None -> dget K_Filter t' = dget K_Filter t -> one_filter t'.
Proof. intros (_ & F) P E. split; [auto|]. now rewrite E. Qed.

(* the numbers of the entries of a document that was loaded *)
Lemma reusable_loaded d F cs x t nb q e0 k : loaded d F cs x t nb q e0 -> sectioned F cs -> reusable F cs t -> oldest_xsn cs = Some k ->
  (forall n e, 0 < n -> cell q n (SDict e) -> n_env e <> Some k) /\ (forall e, cell q k (SDict e) -> n_env e = None) /\ k <= nb.
Proof.
  intros L SC RU OX. destruct (RU k OX) as (K & _ & _ & (s0 & e1 & I1 & I2 & I3) & EN). destruct (loaded_calm _ _ _ _ _ _ _ _ L SC) as [_ G].
  split; [|split].
  - intros n e N C. destruct (G n e N C) as (v & s & e2 & h & J1 & J2 & _ & _ & (_ & _ & V & _)). rewrite V. apply (EN s e2); auto.
  - intros e C. destruct (G k e K C) as (v & s & e2 & h & J1 & J2 & J3 & _ & (_ & _ & V & _)). rewrite V. apply (EN s e2); auto.
  - rewrite <- I3. apply (ld_nb _ _ _ _ _ _ _ _ L) with (s := s0); auto.
Qed.

Lemma foreign_cycle f F cs cs' x t d0 d1 out d2 : lasting f F cs cs' x t -> reusable F cs t -> oldest_xsn cs = None \/ zlib_ok -> loads f F = Ok d0 -> coherent d0 -> revised d0 d1 -> writefile d1 = Ok (out, d2) -> blen out < 10 ^ 10 -> plainly_saved d1 d2 out ->
  exists d3, loads (S f) out = Ok d3 /\ coherent d3 /\
    (forall n, 0 < n -> oldest_xsn cs <> Some n -> match value d1 n with Ok v => exists w, value d3 n = Ok w /\ peq v w | r => value d3 n = r end) /\
    (exists ta tb n, value d1 0 = Ok (PDict ta) /\ value d3 0 = Ok (PDict tb) /\ same_trailer ta tb /\ (oldest_xsn cs = None -> same_entries K_Prev (dset K_Size (PInt n) ta) tb)) /\
    (exists R, out = F ++ R) /\
    exists cs2 cs2' x2 t2, lasting (S f) out cs2 cs2' x2 t2 /\ reusable out cs2 t2 /\ oldest_xsn cs2 = oldest_xsn cs.
Proof.
  intros LA RU ZO LO0 CO0 RV W BL PS. pose proof LA as [RB [AL SC'] AG OB]. pose proof RB as [RD SC (X0 & h & es & older & pt & ECS & _) [TW TX] (b & le & c0 & older0 & EF & _) _].
  assert (XN : forall k, oldest_xsn cs = Some k -> 0 < k) by (intros k Q; destruct (RU k Q); auto). assert (XM : oldest_xsn cs <> Some (-1)) by (intro Q; specialize (XN _ Q); lia).
  destruct (load_any f F cs x t RB XM) as (d & nb & q & e0 & LO & L). rewrite LO0 in LO. injection LO as <-.
  destruct (loaded_calm _ _ _ _ _ _ _ _ L SC) as [CQ _]. pose proof (loaded_matches _ _ _ _ _ _ _ _ L) as MQ.
  destruct (loaded_edition _ _ _ _ _ _ _ _ L SC CO0) as (l & re & data & ED & LL & RE & RDEL & RX & RXT & dx & EDA & DL & DC & DF).
  destruct (ld_head _ _ _ _ _ _ _ _ L) as (CH0 & PV0 & HEV & HDEL & _). destruct (ld_len _ _ _ _ _ _ _ _ L) as (NB & LQ & LC). destruct (ld_nb _ _ _ _ _ _ _ _ L) as [NB1 NB2].
  set (ox := oldest_xsn cs) in *. set (ta := opening_trailer e0 (closing_trailer ox (Z.of_nat (length q)) t)) in *.
  assert (LF : (5 <= length F)%nat) by (rewrite EF, !app_length; change (length (B "%%EOF")) with 5%nat; lia).
  assert (NF : F <> []) by (intros ->; cbn in LF; lia).
  destruct (edition_step l q re ta data (PvSingle F) ox d0 d1) as (row & E1); auto.
  { exists (dx ++ [mk_datum (Some (blen F)) None (Some (PvSingle F))]), (mk_datum None None (Some (PvSingle F))). rewrite EDA, <- app_assoc. split; reflexivity. }
  { eexists. exact ED. }
  subst data. destruct (edition_changes _ _ _ _ _ _ _ _ _ E1 CQ) as (chg & EC & ND & CC & NU); [intros n N; rewrite RX; destruct (truthy ox); [intro Q; injection Q as Q; lia|discriminate]|].
  assert (V0 : value d1 0 = Ok (PDict ta)).
  { rewrite (value_is d1 0 row (PvSingle F) (edition_open _ _ _ _ _ _ _ _ _ E1) (edition_provider _ _ _ _ _ _ _ _ _ _ E1) (ed_coh _ _ _ _ _ _ _ _ _ E1)) by lia. unfold value_of.
    rewrite (proj2 (pyget_cell row 0 _ ltac:(lia)) (ed_head _ _ _ _ _ _ _ _ _ E1)), (proj2 (pyget_cell _ 0 _ ltac:(lia)) (ed_tr _ _ _ _ _ _ _ _ _ E1)). cbn [bind deleted_in]. rewrite RDEL. reflexivity. }
  assert (WTA : wfv (PDict ta)) by (eapply opening_wfv; [exact PV0|now apply closing_wfv]).
  assert (V3Z : forall d3 F3 cs3 x3 t3 nb3 q3 e3, loaded d3 F3 cs3 x3 t3 nb3 q3 e3 -> sectioned F3 cs3 -> coherent d3 -> value d3 0 = Ok (PDict (opening_trailer e3 (closing_trailer (oldest_xsn cs3) (Z.of_nat (length q3)) t3)))).
  { intros d3 F3 cs3 x3 t3 nb3 q3 e3 L3 S3 C3. destruct (loaded_edition _ _ _ _ _ _ _ _ L3 S3 C3) as (l3 & re3 & data3 & ED3 & _ & _ & RDEL3 & _ & _ & dx3 & -> & _).
    rewrite (value_is d3 0 _ (PvSingle F3) (edition_open _ _ _ _ _ _ _ _ _ ED3) (edition_provider _ _ _ _ _ _ _ _ _ _ ED3) C3) by lia. unfold value_of.
    rewrite (proj2 (pyget_cell _ 0 _ ltac:(lia)) (ed_head _ _ _ _ _ _ _ _ _ ED3)), (proj2 (pyget_cell _ 0 _ ltac:(lia)) (ed_tr _ _ _ _ _ _ _ _ _ ED3)). cbn [bind deleted_in]. rewrite RDEL3. reflexivity. }
  destruct (ed_len _ _ _ _ _ _ _ _ _ E1) as [LR1 LR2].
  assert (GROWN : forall n, Z.of_nat (length q) <= n < Z.of_nat (length row) -> In n (map chg_num chg)).
  { intros n RN. pose proof (cell_range _ _ _ CH0). destruct (pyget_range row n ltac:(lia)) as [s C]. destruct (ed_cells _ _ _ _ _ _ _ _ _ E1 n s ltac:(lia) C) as (o & _ & [[D _]|(e & -> & NP & _)]); [apply cell_range in D; lia|].
    apply NU. split; [lia|]. exists e. auto. }
  assert (RK : forall k, ox = Some k -> (forall n e, 0 < n -> cell q n (SDict e) -> n_env e <> Some k) /\ (forall e, cell q k (SDict e) -> n_env e = None) /\ k <= nb) by (intros k Q; exact (reusable_loaded _ _ _ _ _ _ _ _ k L SC RU Q)).
  destruct (write_edition _ _ _ _ _ _ _ _ _ _ out d2 NF E1 DC DF ltac:(lia) XM EC W) as [(-> & ->)|(NE & R & ni & cache' & -> & BR & D2)].
  - (* nothing to write *)
    pose proof (lasting_mono _ _ _ _ _ _ LA) as LA'. destruct (load_any (S f) F cs x t) as (d3 & nb3 & q3 & e3 & LO3 & L3); [apply LA'|exact XM|].
    destruct (ld_len _ _ _ _ _ _ _ _ L3) as (NB3 & LQ3 & _). destruct (ld_nb _ _ _ _ _ _ _ _ L3) as [NB31 NB32].
    assert (LR : length row = length q). { destruct (Nat.eq_dec (length row) (length q)) as [Q|Q]; auto. destruct (GROWN (Z.of_nat (length q))); lia. }
    assert (LE : length q3 = length row).
    { assert (A1 : nb3 <= nb) by (destruct NB32 as [Q'|(s2 & a2 & I2 & J2 & Q2)]; [lia|specialize (NB1 _ _ I2 J2); lia]).
      assert (A2 : nb <= nb3) by (destruct NB2 as [Q'|(s2 & a2 & I2 & J2 & Q2)]; [lia|specialize (NB31 _ _ I2 J2); lia]). lia. }
    destruct (read_again F [] cs q l re ta dx (mk_datum (Some (blen F)) None (Some (PvSingle F))) ox d1 row [] ox d3 cs x t nb3 q3 e3) as [CO3 VV]; auto.
    { intros s0 e p _ _ _ _. now rewrite app_nil_r. } { now rewrite app_nil_r. } { now rewrite app_nil_r. }
    { intros k Q. destruct (RK k Q) as (A1 & A2 & _). destruct (reusable_loaded _ _ _ _ _ _ _ _ k L3 SC RU Q) as (_ & A3 & _). auto. }
    { intros n []. }
    exists d3. split; auto. split; auto. split; auto. split; [|split; [exists []; now rewrite app_nil_r|exists cs, cs', x, t; auto]].
    assert (TB : value d3 0 = Ok (PDict ta)).
    { rewrite (V3Z _ _ _ _ _ _ _ _ L3 SC CO3). fold ox. do 2 f_equal. unfold ta. rewrite LE, LR. apply opening_same. destruct (ld_head _ _ _ _ _ _ _ _ L3) as (_ & PV3 & _). congruence. }
    exists ta, ta, (Z.of_nat (length q)). split; auto. split; auto. split.
    { intros k _. apply (same_refl (k ++ [0])). intro Q. apply (f_equal (@length Z)) in Q. rewrite app_length in Q. cbn in Q. lia. }
    intros OX k NK. assert (Q : dget k (dset K_Size (PInt (Z.of_nat (length q))) ta) = dget k ta); [|rewrite Q; apply (same_refl K_Prev); auto].
    destruct (list_eq_dec Z.eq_dec k K_Size) as [->|NS]; [|now rewrite dget_dset_neq by auto]. rewrite dget_dset_eq. unfold ta. rewrite opening_other by discriminate. unfold closing_trailer. now rewrite dget_dset_eq.
  - (* a section is appended *)
    set (t1 := closing_trailer ox (Z.of_nat (length row)) ta) in *. pose proof (cell_range _ _ _ CH0) as RQ0.
    assert (W1 : wfv (PDict t1)) by (apply closing_wfv; auto).
    assert (NS1 : dget K_XRefStm t1 = None). { unfold t1. rewrite closing_other by discriminate. apply opening_stm. rewrite closing_other by discriminate. auto. }
    assert (NP1 : dget K_Prev t1 = Some (PInt x)). { unfold t1. rewrite closing_other by discriminate. unfold ta. rewrite opening_prev. congruence. }
    set (cache := lset (d_cache d1) 0 (PDict t1)) in *. assert (CT : cell cache 0 (PDict t1)). { unfold cache. change 0%nat with (Z.to_nat 0). apply cell_lset; [lia|auto]. }
    assert (CO' : forall n o, 0 < n -> cell cache n o <-> cell (d_cache d1) n o).
    { intros n o N. unfold cache. change 0%nat with (Z.to_nat 0). rewrite cell_lset by lia. split; [intros [[Q _]|[_ Q]]; [lia|auto]|intro; right; split; [lia|auto]]. }
    assert (CC' : forall c, In c chg -> snd c <> Del /\ 0 < chg_num c /\ exists e o, cell row (chg_num c) (SDict e) /\ n_gen e = 0 /\ n_env e = None /\ cell cache (chg_num c) o /\ savable o).
    { intros c IC. destruct (CC c IC) as (A1 & A2 & e & o & A3 & A4 & A5 & A6 & A7). split; auto. split; auto. exists e, o. repeat (split; [assumption|]). split; auto. apply CO'; auto. }
    assert (AP : exists xs h es tr, appended F R x ox t1 cache (map chg_num chg) xs h es tr).
    { destruct ox as [k|] eqn:OX.
      - specialize (XN k eq_refl). destruct (RU k OX) as (_ & L100 & OF & _). destruct ZO as [ZO|ZO]; [discriminate|].
        assert (PA : dget K_DecodeParms ta = None). { unfold ta. rewrite opening_other by discriminate. apply closing_parms; auto. }
        assert (FA : dget K_Filter ta = dget K_Filter t). { unfold ta. rewrite opening_other, closing_other by discriminate. auto. }
        assert (P1 : dget K_DecodeParms t1 = None). { unfold t1. apply closing_parms; auto. eapply one_get; eauto. }
        assert (F1 : dget K_Filter t1 = dget K_Filter t). { unfold t1. rewrite closing_other by discriminate. auto. }
        apply (appended_stream F R x t1 row cache chg ni cache' k); auto.
        + apply one_plain; auto. eapply one_get; eauto.
        + exists re. split; [exact (ed_head _ _ _ _ _ _ _ _ _ E1)|auto].
        + intro I. apply NU in I as (_ & e & C & NP). destruct (RK k eq_refl) as (_ & _ & KN). destruct (pyget_range q k ltac:(lia)) as [s C']. pose proof (ed_kept _ _ _ _ _ _ _ _ _ E1 k s eq_refl XN C') as C2.
          pose proof (cell_fun _ _ _ _ C C2) as <-. destruct (CQ k _ XN C') as [Q|(e' & Q & _ & NP')]; [discriminate|]. injection Q as <-. congruence.
        + intros t3 pe z lg A1 A2 A3 A4. destruct PS as [PS|PS]; [rewrite (ed_xsn _ _ _ _ _ _ _ _ _ E1) in PS; discriminate|].
          apply (PS _ z lg (D2 t3 pe A1 A2)); [rewrite opening_prev; congruence|rewrite opening_other by discriminate; auto].
      - apply (appended_table F R x t1 row cache chg ni cache'); auto. exists re. split; [exact (ed_head _ _ _ _ _ _ _ _ _ E1)|auto]. }
    destruct AP as (xs & hd & es2 & tr & AP). pose proof (ap_sec _ _ _ _ _ _ _ _ _ _ _ AP) as SEC.
    destruct (lasting_step f F cs cs' x t R xs hd es2 tr LA SEC) as (sx & ep & sx' & ep' & LA2). set (c := close_section (hd :: es2) false sx ep) in *.
    assert (NCS : cs' <> []) by (intros ->; inversion AL; subst; discriminate).
    assert (OX2 : oldest_xsn (c :: cs') = ox).
    { unfold ox. rewrite (oldest_alike cs cs' AL). unfold oldest_xsn. cbn [rev]. destruct (rev cs') as [|r rr] eqn:Q; [destruct cs'; [congruence|cbn in Q; destruct (rev cs'); discriminate]|]. reflexivity. }
    assert (TLC : forall e, In e (tl c) -> In e es2 \/ (n_num e = -1 /\ n_env e = None)). { intros e I. cbn [c close_section tl] in I. apply in_app_or in I as [I|[<-|[]]]; auto. }
    pose proof (ns_listed _ _ _ _ _ _ _ SEC) as LI. rewrite Forall_forall in LI.
    destruct (ap_trailer _ _ _ _ _ _ _ _ _ _ _ AP) as (tw & WTW & ETR & GT).
    assert (GTR : forall k, ox = None \/ ~ K_own k -> dget k tr = option_map rv (dget k t1)). { intros k Q. rewrite ETR, dget_rvd by (apply wfv_nodup; auto). now rewrite GT. }
    assert (OF2 : forall k, ox = Some k -> one_filter t -> dget K_DecodeParms tr = None /\ one_filter tr).
    { intros k OX OF. assert (A1 : dget K_DecodeParms ta = None). { unfold ta. rewrite OX. rewrite opening_other by discriminate. apply closing_parms; auto. }
      assert (A2 : dget K_DecodeParms t1 = None). { unfold t1. rewrite OX. apply closing_parms; auto. eapply one_get; [exact OF|auto|]. unfold ta. rewrite opening_other, closing_other by discriminate. auto. }
      assert (A3 : dget K_DecodeParms tr = None). { rewrite GTR, A2; [reflexivity|right; intros [Q|[Q|[Q|Q]]]; discriminate]. }
      split; auto. split; auto. rewrite GTR by (right; intros [Q|[Q|[Q|Q]]]; discriminate). unfold t1, ta. rewrite closing_other, opening_other, closing_other by discriminate.
      destruct OF as (_ & [F1|(n & [F1|F1] & IN)]); rewrite F1; [left; reflexivity| |]; right; exists n; (split; [|exact IN]); [left|right]; reflexivity. }
    assert (RU2 : reusable (F ++ R) (c :: cs') tr).
    { intros k OX. rewrite OX2 in OX. destruct (RU k OX) as (A1 & A2 & A3 & (s1 & a1 & A4 & A5 & A6) & A7). split; auto. split; [rewrite blen_app; unfold blen in *; lia|]. split; [eapply OF2; eauto|]. split.
      - destruct (alike_in cs cs' s1 a1 AL A4 A5 ltac:(lia)) as (s2 & I2 & J2). exists s2, a1. split; [right; auto|auto].
      - intros s e [<-|I] J.
        + assert (EV : n_env e = None). { destruct (TLC e J) as [I|[_ Q]]; auto. destruct (LI e I) as (_ & _ & _ & z & (Q & _) & _). auto. } rewrite EV. split; [discriminate|auto].
        + destruct (sc_numbers _ _ SC' s e I J) as [[N1 N2]|(N1 & _)]; [rewrite N2; split; [discriminate|auto]|]. destruct (alike_in cs' cs s e (alike_flip _ _ AL) I J ltac:(lia)) as (s2 & I2 & J2). apply (A7 s2 e); auto. }
    destruct (load_any (S f) (F ++ R) (c :: cs') (Z.of_nat xs) tr) as (d3 & nb3 & q3 & e3 & LO3 & L3); [apply LA2|rewrite OX2; exact XM|].
    destruct (ld_len _ _ _ _ _ _ _ _ L3) as (NB3 & LQ3 & _). destruct (ld_nb _ _ _ _ _ _ _ _ L3) as [NB31 NB32].
    pose proof (rb_secs _ _ _ _ _ (la_readable _ _ _ _ _ _ LA2)) as SC3.
    assert (LE : length q3 = length row).
    { assert (U : nb3 + 1 <= Z.of_nat (length row)).
      { destruct NB32 as [->|(s2 & a2 & [<-|I2] & J2 & Q2)]; [lia| |].
        - destruct (TLC _ J2) as [I|[Q _]]; [|lia]. destruct (ap_nums _ _ _ _ _ _ _ _ _ _ _ AP a2 I) as [J|J]; [apply NU in J as (_ & e & C & _); apply cell_range in C; lia|]. destruct (RK _ J) as (_ & _ & Q). lia.
        - destruct (Z_lt_ge_dec 0 nb3) as [P|P]; [|lia]. destruct (alike_in cs' cs s2 a2 (alike_flip _ _ AL) I2 J2 ltac:(lia)) as (s4 & I4 & J4). specialize (NB1 _ _ I4 J4). lia. }
      assert (V : Z.of_nat (length row) <= nb3 + 1); [|lia].
      destruct (Nat.eq_dec (length row) (length q)) as [Q|Q].
      - destruct (Z_lt_ge_dec 0 nb) as [P|P]; [|lia]. destruct NB2 as [Q2|(s2 & a2 & I2 & J2 & Q2)]; [lia|]. destruct (alike_in cs cs' s2 a2 AL I2 J2 ltac:(lia)) as (s4 & I4 & J4). specialize (NB31 s4 a2 (or_intror I4) J4). lia.
      - destruct (ap_new _ _ _ _ _ _ _ _ _ _ _ AP (Z.of_nat (length row) - 1)) as (e & z & o & w & I & N & _); [apply GROWN; lia|]. specialize (NB31 c e (or_introl eq_refl)).
        enough (n_num e <= nb3) by lia. apply NB31. cbn [c close_section tl]. apply in_or_app. auto. }
    destruct (read_again F R cs q l re ta dx (mk_datum (Some (blen F)) None (Some (PvSingle F))) ox d1 row (map chg_num chg) ox d3 (c :: cs') (Z.of_nat xs) tr nb3 q3 e3) as [CO3 VV]; auto.
    { intros s0 e p I J N D. eapply OB; eauto. }
    { intros n N NI NX. unfold c. rewrite history_section by auto. rewrite filter_no; [cbn [fold_left]; symmetry; apply history_alike; auto; now apply Forall2_rev|]. intro I. apply in_map_iff in I as (e & <- & I). destruct (ap_nums _ _ _ _ _ _ _ _ _ _ _ AP e I); auto. }
    { intros k Q. destruct (RK k Q) as (A1 & A2 & _). rewrite <- OX2 in Q. destruct (reusable_loaded _ _ _ _ _ _ _ _ k L3 SC3 RU2 Q) as (_ & A3 & _). auto. }
    { intros n I. destruct (ap_new _ _ _ _ _ _ _ _ _ _ _ AP n I) as (e & z & o & w & IE & NE1 & DE & DD & ZB & CO & G & PQ). unfold c. pose proof I as I'. apply NU in I' as [NP _]. rewrite history_section by auto.
      rewrite (filter_one n es2 e (ap_nodup _ _ _ _ _ _ _ _ _ _ _ AP) IE NE1). cbn [fold_left].
      assert (RM : remember (Z.of_nat (length cs')) (history n 0 [] (rev cs')) e = (Z.of_nat (length cs'), e) :: history n 0 [] (rev cs')).
      { unfold remember. destruct (history n 0 [] (rev cs')) as [|[v4 e4] h4] eqn:HE; [reflexivity|]. destruct (n_pos e4) as [a|] eqn:PA; [|reflexivity]. rewrite (proj2 DE). destruct (apos_eqb a (AInt z)) eqn:QA; [|reflexivity]. exfalso. apply apos_eqb_true in QA. subst a.
        assert (IH : In (v4, e4) (history n 0 [] (rev cs'))) by (rewrite HE; left; auto). apply history_in in IH as [[]|(j & s4 & J & _ & I4 & _)].
        destruct (sc_entry _ _ SC' s4 e4) as (_ & _ & [(z' & (_ & D') & ZB')|(env & off & _ & Q)]); [apply in_rev; eapply nth_error_In; eauto|destruct s4; [destruct I4|right; auto]| |congruence]. assert (z = z') by congruence. lia. }
      rewrite RM. eexists _, _, _, z, w, o. split; [reflexivity|]. split; [exact DE|]. split; [exact DD|]. split; [eapply good_object; eauto|]. split; [apply G|]. split; [apply CO'; auto|auto]. }
    exists d3. split; auto. split; auto. split; auto. split; [|split; [eauto|eexists _, _, _, _; split; [exact LA2|auto]]].
    eexists ta, _, (Z.of_nat (length row)). split; auto. split; [apply (V3Z _ _ _ _ _ _ _ _ L3); auto|]. rewrite OX2.
    assert (TX3 : dget K_XRefStm tr = None) by apply (rb_trailer _ _ _ _ _ (la_readable _ _ _ _ _ _ LA2)).
    split.
    + intros k NX. assert (N1 : ~ K_own k) by (intros [Q|[Q|[Q|Q]]]; apply NX; unfold xref_entry; auto). assert (N2 : k <> K_Size) by (intro Q; apply NX; unfold xref_entry; auto 8). assert (N3 : k <> K_Prev) by (intro Q; apply NX; unfold xref_entry; auto 8).
      destruct (list_eq_dec Z.eq_dec k K_XRefStm) as [->|N4].
      { rewrite opening_stm by (rewrite closing_other by discriminate; auto). unfold ta. rewrite opening_stm by (rewrite closing_other by discriminate; auto). split; [tauto|]. intros a b0 Q. discriminate. }
      destruct (list_eq_dec Z.eq_dec k K_DecodeParms) as [->|N5].
      * rewrite opening_other by auto. destruct ox as [k|] eqn:OX.
        -- destruct (RU k OX) as (KP & _ & OF & _). destruct (OF2 k eq_refl OF) as (Q1 & Q2). rewrite closing_parms by auto. unfold ta. rewrite opening_other by auto. rewrite closing_parms by auto. split; [tauto|]. intros a b0 Q. discriminate.
        -- rewrite closing_none, dget_dset_neq by auto. rewrite ETR. pose proof (same_rvd K_Prev tw WTW K_DecodeParms ltac:(discriminate)) as Q. rewrite GT in Q by auto. unfold t1 in Q. rewrite closing_none, dget_dset_neq in Q by auto. exact Q.
      * rewrite opening_other, closing_other by auto. rewrite ETR. pose proof (same_rvd K_Prev tw WTW k N3) as Q. rewrite GT in Q by auto. unfold t1 in Q. rewrite closing_other in Q by auto. exact Q.
    + intros OX k NK. rewrite OX, closing_none. destruct (list_eq_dec Z.eq_dec k K_XRefStm) as [->|N4].
      { rewrite opening_stm by (rewrite dget_dset_neq by discriminate; auto). rewrite dget_dset_neq by discriminate. unfold ta. rewrite opening_stm by (rewrite closing_other by discriminate; auto). split; [tauto|]. intros a b0 Q. discriminate. }
      rewrite opening_other by auto. destruct (list_eq_dec Z.eq_dec k K_Size) as [->|NS].
      * rewrite LE. rewrite !dget_dset_eq. split; [tauto|]. intros a b0 Q1 Q2. assert (a = b0) by congruence. subst. apply peq_refl.
      * rewrite !(dget_dset_neq k K_Size) by auto. rewrite ETR. pose proof (same_rvd K_Prev tw WTW k NK) as Q. rewrite GT in Q by auto. unfold t1 in Q. rewrite OX, closing_none, dget_dset_neq in Q by auto. exact Q.
Qed.

(* any number of sessions *)
Lemma maintained_lasting f F cs cs' x t n G d : lasting f F cs cs' x t -> reusable F cs t -> oldest_xsn cs = None \/ zlib_ok -> (forall d, loads f F = Ok d -> coherent d) -> maintained f F n G d ->
  loads n G = Ok d /\ coherent d /\ (exists R, G = F ++ R) /\ exists cs2 cs2' x2 t2, lasting n G cs2 cs2' x2 t2 /\ reusable G cs2 t2 /\ oldest_xsn cs2 = oldest_xsn cs.
Proof.
  intros LA RU ZO CO M. induction M as [d L|n G d d1 out d2 d3 M IH RV W BL PS L].
  - split; auto. split; auto. split; [exists []; now rewrite app_nil_r|]. exists cs, cs', x, t. auto.
  - destruct IH as (L0 & C0 & (R0 & E0) & cs2 & cs2' & x2 & t2 & LA2 & RU2 & OX2). rewrite <- OX2 in ZO.
    destruct (foreign_cycle n G cs2 cs2' x2 t2 d d1 out d2 LA2 RU2 ZO L0 C0 RV W BL PS) as (d3' & L3 & C3 & _ & _ & (R & ER) & cs3 & cs3' & x3 & t3 & LA3 & RU3 & OX3).
    assert (d3' = d3) by congruence. subst d3'. split; auto. split; auto. split; [exists (R0 ++ R); rewrite ER, E0, <- app_assoc; reflexivity|]. exists cs3, cs3', x3, t3. split; auto. split; [auto|congruence].
Qed.
End WithZlib.
