(* Object streams as other programs write them *)
From Coq Require Import String ZifyBool ZifyNat.
From Verif Require Import PyBase Model_Filters Model_Objects Spec_Objects Spec_Docstruct Spec_Syntax Spec_Streams.
From Verif Require Import Facts_Base Facts_Token Facts_Obj Facts_Ser Facts_Parse Facts_Top Facts_Xref Facts_Objstm Facts_Syntax.

Section WithZlib.
Context {ZL : Zlib}.

Lemma kind_notstream o k : kind_of o = Some k -> k <> TStream.
Proof.
  intros K ->. destruct o as [|b|z|m e|s|s|g n|l|d|d s e]; cbn in K; try discriminate; [destruct b; discriminate|].
  destruct s as [|a s]; [discriminate|]. destruct a as [|q|q]; try discriminate. repeat (destruct q as [q|q|]; try discriminate).
Qed.
Lemma member_token o v : member_text o v -> peq o (rv o) /\ v <> [] /\ exists k, tokk v k /\ k <> TStream /\ (closed o -> selfdel k = true) /\
  forall pre tail, closed o \/ sepstart tail -> snd (next_token tail 0) <> Some TStream -> parse_obj (pre ++ v ++ tail) (length pre) = Ok (rv o).
Proof.
  intros [[SP NR]|[L ->]].
  - destruct (proj1 spelling o v SP) as (_ & _ & NE & _ & _ & PQ & D & _). split; auto. split; auto. unfold direct in D.
    assert (K : exists k, kind_of o = Some k).
    { inversion SP; subst; cbn; eauto. all: try (exfalso; eapply NR; reflexivity). all: destruct v as [|c v]; eauto;
      repeat match goal with |- exists k, match ?x with _ => _ end = Some k => destruct x; eauto end. }
    destruct K as (k & K). rewrite K in D. destruct D as [T D]. exists k. split; auto. split; [eapply kind_notstream; eauto|]. split; [intro C; eapply closed_selfdel; eauto|].
    intros pre tail C NS. replace (length pre) with (length pre + 0)%nat by lia. rewrite parse_obj_shift. unfold parse_obj. apply D; auto; [rewrite app_length; lia|].
    destruct C as [C|C]; auto. left. eapply closed_selfdel; eauto.
  - destruct (top_direct (fun g => g = 0) (PBytes v) (wt_lit v L)) as (v' & k & E & K & T & _). cbn in E. injection E as <-. split; [constructor|]. split; [eapply tokk_nonempty; eauto|].
    exists k. split; auto. split; [eapply kind_notstream; eauto|]. split; [intro C; eapply closed_selfdel; eauto|].
    intros pre tail C NS. apply (top_parse (fun g => g = 0) (PBytes v) v); auto. apply wt_lit; auto.
Qed.
Lemma row_nostream l s : row_text l s -> snd (next_token s 0) <> Some TStream.
Proof.
  intros [w W|w v o l' s' W M R C].
  - destruct w as [|c w]; [discriminate|]. destruct (white_none (c :: w) W ltac:(discriminate) [] 0%nat (c :: w) 0%nat (or_introl eq_refl)) as (h & E). rewrite app_nil_r in E. unfold next_token. cbn [skipn]. rewrite E. discriminate.
  - destruct (member_token o v M) as (_ & _ & k & T & NS & CL & _). assert (S : selfdel k = true \/ sepstart s') by (destruct C as [C|C]; [left; auto|right; apply sep_iff; auto]).
    pose proof (next_token_white [] w v k s' W T S) as N. cbn [app length] in N. rewrite N. cbn [snd]. congruence.
Qed.
Lemma row_read l s : row_text l s -> forall pre fuel, (length l + 1 < fuel)%nat ->
  exists ps x, token_starts fuel (pre ++ s) (length pre) = Ok (ps ++ x) /\ (length x <= 1)%nat /\ Forall2 (fun o p => parse_obj (pre ++ s) p = Ok (rv o)) l ps.
Proof.
  induction 1 as [w W|w v o l s W M R IH C]; intros pre fuel LF.
  - exists []. destruct w as [|c w].
    + exists []. rewrite app_nil_r. destruct fuel; [lia|]. cbn [token_starts]. rewrite Nat.ltb_irrefl. split; [reflexivity|]. split; [cbn; lia|constructor].
    + destruct fuel as [|[|fuel]]; try lia. destruct (white_none (c :: w) W ltac:(discriminate) [] 0%nat (c :: w) 0%nat (or_introl eq_refl)) as (h & E). rewrite app_nil_r in E.
      assert (ET : next_token (pre ++ c :: w) (length pre) = shift3 (length pre) (h, length (c :: w), None)).
      { replace (length pre) with (length pre + 0)%nat at 1 by lia. rewrite next_token_app. f_equal. exact E. }
      cbn [shift3] in ET. exists [(length pre + h)%nat]. assert (LT : (length pre < length (pre ++ c :: w))%nat) by (rewrite app_length; cbn [length]; lia).
      rewrite (starts_step _ _ _ _ _ _ LT ET). cbn [token_starts]. rewrite app_length, Nat.ltb_irrefl. split; [reflexivity|]. split; [cbn; lia|constructor].
  - destruct (member_token o v M) as (_ & NV & k & T & NS & CL & P). assert (S : selfdel k = true \/ sepstart s) by (destruct C as [C|C]; [left; auto|right; apply sep_iff; auto]).
    pose proof (next_token_white pre w v k s W T S) as N. destruct fuel as [|fuel]; [lia|]. cbn [length] in LF.
    destruct (IH (pre ++ w ++ v) fuel ltac:(lia)) as (ps & x & E & LX & F). repeat rewrite <- app_assoc in E, F.
    exists (length (pre ++ w) :: ps), x. split; [|split; [auto|constructor; [|exact F]]].
    + assert (LT : (length pre < length (pre ++ w ++ v ++ s))%nat) by (rewrite !app_length; destruct v; [congruence|cbn [length]; lia]).
      rewrite (starts_step _ _ _ _ _ _ LT N). replace (length (pre ++ w) + length v)%nat with (length (pre ++ w ++ v)) by (rewrite !app_length; lia). rewrite E. reflexivity.
    + rewrite app_assoc. apply P; [|eapply row_nostream; eauto]. destruct C as [C|C]; [left; auto|right; apply sep_iff; auto].
Qed.
Lemma row_white w l s : Forall white w -> row_text l s -> row_text l (w ++ s).
Proof.
  intros W R. destruct R as [w' W'|w' v o l' s' W' M R C]; [constructor; apply Forall_app; auto|]. rewrite app_assoc. constructor; auto. apply Forall_app; auto.
Qed.
Lemma row_app a s : row_text a s -> forall b t, row_text b t -> row_text (a ++ b) (s ++ t).
Proof.
  induction 1 as [w W|w v o l s W M R IH C]; intros b t RT; [apply row_white; auto|]. rewrite <- !app_assoc. cbn [app]. constructor; auto.
  destruct C as [C|(c & r & -> & C)]; [left; auto|right; exists c, (r ++ t); auto].
Qed.
Lemma white_gap w : Forall white w -> gap w.
Proof. induction 1; constructor; auto. Qed.
Lemma row_elements zs : forall s, row_text (map PInt zs) s -> elements false (map PInt zs) s.
Proof.
  induction zs as [|z zs IH]; intros s R; cbn [map] in *.
  - inversion R; subst. constructor. apply white_gap; auto.
  - inversion R as [|w v o l s' W M RR C]; subst. destruct M as [[SP _]|[_ Q]]; [|discriminate]. apply el_cons; auto; [apply white_gap; auto|tauto|discriminate].
Qed.
Lemma row_longer l s : row_text l s -> (length l <= length s)%nat.
Proof.
  induction 1 as [w W|w v o l s W M R IH C]; cbn [length]; [lia|]. destruct (member_token o v M) as (_ & NV & _). rewrite !app_length. destruct v; [congruence|cbn [length]; lia].
Qed.
Lemma emb_read data tokens ypos env (l : list (Z * obj)) :
  (forall x n o, nth_error l x = Some (n, o) -> exists p q, nth_error tokens (2 * length l + x) = Some p /\ nth_error tokens (2 * x) = Some q /\
     parse_obj data q = Ok (PInt n) /\ parse_obj data p = Ok (rv o)) ->
  forall cnt x, (x + cnt = length l)%nat -> exists r, emb_loop data tokens ypos (length l) env x cnt = Ok r /\ Forall2 (fun p e => e_num e = PInt (fst p) /\ e_obj e = rv (snd p)) (skipn x l) r.
Proof.
  intro H. induction cnt as [|cnt IH]; intros x L.
  - exists []. split; [reflexivity|]. rewrite skipn_all2 by lia. constructor.
  - destruct (nth_error l x) as [[n o]|] eqn:E; [|apply nth_error_None in E; lia]. destruct (H x n o E) as (p & q & E1 & E2 & P1 & P2).
    destruct (IH (S x) ltac:(lia)) as (r & ER & FR). cbn [emb_loop]. rewrite E1, E2. cbn [of_opt bind]. rewrite P1, P2. cbn [bind]. rewrite ER. cbn [bind].
    eexists. split; [reflexivity|]. rewrite (skipn_nth _ _ _ E). constructor; [|exact FR]. split; reflexivity.
Qed.
Definition head_ints (l : list (Z * obj)) (offs : list Z) : list Z := flat_map (fun p => [fst (fst p); snd p]) (combine l offs).
Lemma head_ints_map l offs : flat_map (fun p : (Z * obj) * Z => [PInt (fst (fst p)); PInt (snd p)]) (combine l offs) = map PInt (head_ints l offs).
Proof. unfold head_ints. induction (combine l offs) as [|p c IH]; cbn [flat_map map app]; auto. rewrite IH. reflexivity. Qed.
Lemma head_ints_length l : forall offs, length offs = length l -> length (head_ints l offs) = (2 * length l)%nat.
Proof. induction l as [|p l IH]; intros [|z offs] L; try discriminate; [reflexivity|]. unfold head_ints. cbn [combine flat_map]. rewrite app_length. fold (head_ints l offs). rewrite IH by (cbn in L; lia). cbn. lia. Qed.
Lemma head_ints_nth l : forall offs x n o, length offs = length l -> nth_error l x = Some (n, o) -> nth_error (head_ints l offs) (2 * x) = Some n.
Proof.
  induction l as [|p l IH]; intros [|z offs] [|x] n o L E; try discriminate.
  - cbn in E. injection E as ->. reflexivity.
  - replace (2 * S x)%nat with (S (S (2 * x))) by lia. unfold head_ints. cbn [combine flat_map app nth_error]. apply (IH offs x n o); auto.
Qed.
Lemma odd_ints l : forall b c, exists ys, odd_positions b c (map PInt l) = Ok ys.
Proof.
  induction l as [|z l IH]; intros b c; cbn [map odd_positions]; [eauto|]. destruct (IH (negb b) c) as (ys & ->). cbn [bind]. destruct b; eauto.
Qed.
Lemma list_rv_ints zs : rv (PList (map PInt zs)) = PList (map PInt zs).
Proof. cbn [rv]. f_equal. rewrite map_map. apply map_ext. reflexivity. Qed.

Theorem objects_read d l first data env : l <> [] -> objects_text l first data ->
  dget K_First d = Some (PInt first) -> (exists z, dget K_N d = Some (PInt z)) ->
  exists r, parse_object_stream d (Some data) env = Ok r /\ Forall2 (fun p e => e_num e = PInt (fst p) /\ e_obj e = rv (snd p)) l r.
Proof.
  intros NL (offs & hd & bd & ED & EF & LO & RH & RB) DF (z & DN). rewrite head_ints_map in RH. set (zs := head_ints l offs) in *.
  assert (LZ : length zs = (2 * length l)%nat) by (apply head_ints_length; auto).
  pose proof (row_app _ _ RH _ _ RB) as RD. rewrite <- ED in RD.
  unfold parse_object_stream. rewrite DF, DN. cbn [of_opt bind py_int_obj].
  destruct (row_read _ _ RD [] (S (length data))) as (ps & x & ET & LX & FP).
  { destruct data as [|c0 data0]; [|].
    - pose proof (row_longer _ _ RD) as Q. rewrite app_length, !map_length in Q. cbn in Q. destruct l; [congruence|]. cbn in *. lia.
    - pose proof (row_longer _ _ RD) as Q. rewrite app_length, !map_length in *.
      assert (length (c0 :: data0) <> length zs + length l)%nat; [|lia].
      (* an integer is followed by a separator *)
      intro Q2. destruct zs as [|a zs']; [destruct l; [congruence|cbn in LZ; lia]|]. cbn [map] in RH. inversion RH as [|w v o l0 s0 W M RR C]; subst. destruct C as [[]|(c & r & -> & WD)].
      destruct (member_token _ _ M) as (_ & NV & _). pose proof (row_longer _ _ RB) as Q3. rewrite map_length in Q3. assert (LL : (length (map PInt zs') < length (c :: r))%nat).
      { inversion RR as [w1 W1|w1 v1 o1 l1 s1 W1 M1 RR1 C1].
        - assert (zs' = []) by (destruct zs'; [auto|discriminate]). subst zs'. cbn in LZ. destruct l; [congruence|]. cbn in LZ. lia.
        - pose proof (row_longer _ _ RR1) as Q4. destruct (member_token _ _ M1) as (_ & NV1 & _). destruct v1 as [|b1 v1]; [congruence|].
          destruct w1 as [|w0 w1]; [|rewrite !app_length; cbn [length]; lia].
          exfalso. destruct zs' as [|b zs']; [discriminate|]. cbn [map] in *. match goal with H : o1 :: l1 = _ |- _ => injection H as -> -> end.
          destruct M1 as [[SP _]|[_ Q5]]; [|discriminate]. inversion SP as [| |? ? IT| | | | | | | |]; subst. cbn [app] in *. match goal with H : b1 :: _ = c :: r |- _ => injection H as -> _ end.
          destruct IT as (sg & t & ds & E1 & E2 & E3 & E4 & _). assert (CC : c = 43 \/ c = 45 \/ decdigit c).
          { inversion E2; subst t; cbn [app] in E1; [|injection E1 as -> _; lia|injection E1 as -> _; lia]. destruct ds; [congruence|]. injection E1 as -> _. inversion E4; auto. }
          unfold decdigit, white, delim in *. destruct WD as [WD|WD]; [lia|]. cbn in WD. lia. }
      rewrite ED in Q2. cbn [map] in LL. rewrite map_length in LL. destruct v; [congruence|]. rewrite !app_length in Q2. cbn [length] in *. lia. }
  cbn [app length] in ET, FP. rewrite ET. cbn [bind].
  assert (LP : length ps = (3 * length l)%nat). { assert (Q : length (map PInt zs ++ map snd l) = length ps) by (clear - FP; induction FP; cbn; congruence). rewrite app_length, !map_length in Q. lia. }
  replace (length (ps ++ x) / 3)%nat with (length l) by (rewrite app_length, LP; apply Nat.div_unique with (r := length x); lia).
  assert (N0 : exists t0, nth_error (ps ++ x) (2 * length l) = Some t0).
  { destruct (nth_error (ps ++ x) (2 * length l)) eqn:Q; eauto. apply nth_error_None in Q. rewrite app_length, LP in Q. destruct l; [congruence|]. cbn [length] in Q. lia. }
  destruct N0 as (t0 & N0). rewrite N0. cbn [of_opt bind].
  replace (slice_to data first) with hd.
  2:{ subst first. rewrite ED. unfold slice_to. replace (0 <=? Z.of_nat (length hd)) with true by lia. rewrite Nat2Z.id, firstn_app, firstn_all2, Nat.sub_diag by lia. cbn. now rewrite app_nil_r. }
  assert (PA : parse_obj ([91] ++ hd ++ [93]) 0 = Ok (PList (map PInt zs))).
  { rewrite <- list_rv_ints. pose proof (spelled_rv (PList (map PInt zs)) ([91] ++ hd ++ [93])) as Q. specialize (Q (sp_array _ _ (row_elements _ _ RH)) ltac:(discriminate) [] []).
    cbn [app length] in Q. rewrite app_nil_r in Q. apply Q. split; [left; exact I|]. exists [], []. split; auto. split; [constructor|auto]. }
  rewrite PA. cbn [bind iter_obj]. destruct (odd_ints zs false first) as (ys & ->). cbn [bind].
  apply (emb_read _ _ _ env l) with (x := 0%nat); [|lia]. intros k n o E.
  assert (LK : (k < length l)%nat) by (apply nth_error_Some; congruence).
  assert (GET : forall i v, nth_error (map PInt zs ++ map snd l) i = Some v -> exists p, nth_error (ps ++ x) i = Some p /\ parse_obj data p = Ok (rv v)).
  { intros i v Q. clear - FP Q. revert i Q. induction FP as [|a p l1 l2 H F IH]; intros [|i] Q; try discriminate; cbn in *; [injection Q as ->; eauto|auto]. }
  destruct (GET (2 * length l + k)%nat o) as (p & P1 & P2).
  { rewrite nth_error_app2 by (rewrite map_length; lia). rewrite map_length, LZ. replace (2 * length l + k - 2 * length l)%nat with k by lia. rewrite (map_nth_error snd _ _ E). reflexivity. }
  destruct (GET (2 * k)%nat (PInt n)) as (q & Q1 & Q2).
  { rewrite nth_error_app1 by (rewrite map_length; lia). apply map_nth_error. unfold zs. eapply head_ints_nth; eauto. }
  exists p, q. auto.
Qed.

Lemma objects_peq l first data : objects_text l first data -> Forall (fun p => peq (snd p) (rv (snd p))) l.
Proof.
  intros (offs & hd & bd & _ & _ & _ & _ & RB). revert RB. generalize bd. clear - ZL. induction l as [|p l IH]; intros s R; constructor.
  - cbn [map] in R. inversion R; subst. eapply member_token; eauto.
  - cbn [map] in R. inversion R; subst. eauto.
Qed.
Theorem objects_found d l first data env : l <> [] -> objects_text l first data ->
  dget (B "/First") d = Some (PInt first) -> (exists z, dget (B "/N") d = Some (PInt z)) ->
  exists r, parse_object_stream d (Some data) env = Ok r /\ Forall2 (fun p e => e_num e = PInt (fst p) /\ peq (snd p) (e_obj e)) l r.
Proof.
  intros NL OT DF DN. destruct (objects_read d l first data env NL OT DF DN) as (r & E & F). exists r. split; auto. pose proof (objects_peq _ _ _ OT) as PQ. clear - F PQ.
  induction F as [|p e l r [E1 E2] F IH]; constructor; inversion PQ; subst; auto. rewrite E2. auto.
Qed.
End WithZlib.
