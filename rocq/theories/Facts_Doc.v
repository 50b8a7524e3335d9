(* Documents: reads, edits, changes (C25-C29) *)
From Coq Require Import String ZifyBool ZifyNat Permutation Sorted.
From Verif Require Import PyBase Model_Filters Model_Objects Model_Filestruct Model_Docstruct Spec_Objects Spec_Filestruct Spec_Docstruct
  Facts_Base Facts_Token Facts_Obj Facts_Ser Facts_Parse Facts_Top Facts_Stream Facts_Filters Facts_Refs Facts_Prov Facts_Xref Facts_Indirect Facts_Xstm Facts_Revision.

(* ---------- lists ---------- *)
Lemma pyget_last {A} (l : list A) x : pyget (l ++ [x]) (-1) = Ok x.
Proof.
  unfold pyget, pyidx. rewrite app_length. cbn [length].
  replace ((0 <=? -1) && (-1 <? Z.of_nat (length l + 1))) with false by lia.
  replace ((- Z.of_nat (length l + 1) <=? -1) && (-1 <? 0)) with true by lia.
  replace (Z.to_nat (-1 + Z.of_nat (length l + 1))) with (length l) by lia.
  rewrite nth_error_app2 by lia. now rewrite Nat.sub_diag.
Qed.
Lemma lset_last {A} (l : list A) x y : lset (l ++ [x]) (length l) y = l ++ [y].
Proof. induction l as [|a l IH]; cbn; [reflexivity|now rewrite IH]. Qed.
Lemma pyset_last {A} (l : list A) x y : pyset (l ++ [x]) (-1) y = Ok (l ++ [y]).
Proof.
  unfold pyset, pyidx. rewrite app_length. cbn [length].
  replace ((0 <=? -1) && (-1 <? Z.of_nat (length l + 1))) with false by lia.
  replace ((- Z.of_nat (length l + 1) <=? -1) && (-1 <? 0)) with true by lia.
  replace (Z.to_nat (-1 + Z.of_nat (length l + 1))) with (length l) by lia. now rewrite lset_last.
Qed.
Lemma pyget_last_inv {A} (l : list A) x : pyget l (-1) = Ok x -> exists l', l = l' ++ [x].
Proof.
  destruct l as [|a l] using rev_ind; [discriminate|]. rewrite pyget_last. intro H. injection H as ->. eauto.
Qed.
Lemma cell_app {A} (l m : list A) n x : cell l n x -> cell (l ++ m) n x.
Proof. intros [H E]. split; [auto|]. rewrite nth_error_app1; [auto|]. apply nth_error_Some. congruence. Qed.
Lemma pyget_range {A} (l : list A) n : 0 <= n < Z.of_nat (length l) -> exists x, cell l n x.
Proof.
  intro H. destruct (nth_error l (Z.to_nat n)) eqn:E; [exists a; split; [lia|auto]|].
  apply nth_error_None in E. lia.
Qed.
Lemma pyget_bad {A} (l : list A) n : Z.of_nat (length l) <= n -> pyget l n = Exc EIndexError.
Proof.
  intro H. unfold pyget, pyidx. replace ((0 <=? n) && (n <? Z.of_nat (length l))) with false by lia.
  replace ((- Z.of_nat (length l) <=? n) && (n <? 0)) with false by lia. reflexivity.
Qed.
Lemma pyset_ok {A} (l : list A) n v : 0 <= n < Z.of_nat (length l) -> pyset l n v = Ok (lset l (Z.to_nat n) v).
Proof. intro H. unfold pyset, pyidx. now replace ((0 <=? n) && (n <? Z.of_nat (length l))) with true by lia. Qed.
Lemma cell_dec {A} (l : list A) n : 0 <= n -> (exists x, cell l n x) \/ pyget l n = Exc EIndexError.
Proof.
  intro H. destruct (Z_lt_ge_dec n (Z.of_nat (length l))); [left; apply pyget_range; lia|right; apply pyget_bad; lia].
Qed.
Lemma cell_lset {A} (l : list A) n v k x : 0 <= n < Z.of_nat (length l) ->
  cell (lset l (Z.to_nat n) v) k x <-> (k = n /\ x = v) \/ (k <> n /\ cell l k x).
Proof.
  intro H. destruct (Z.eq_dec k n) as [->|N].
  - split.
    + intros [_ E]. rewrite lset_get, Nat.eqb_refl in E by lia. injection E as ->. auto.
    + intros [[_ ->]|[C _]]; [|congruence]. split; [lia|]. now rewrite lset_get, Nat.eqb_refl by lia.
  - rewrite (pyset_other l _ n v); [|lia|apply pyset_ok; lia|auto]. intuition.
Qed.

Section WithZlib.
Context {ZL : Zlib}.

Lemma open_last d row : open_row d row -> last_row d = Ok row.
Proof. intros [l E]. unfold last_row. rewrite E. apply pyget_last. Qed.
Lemma last_open d row : last_row d = Ok row -> open_row d row.
Proof. intro H. apply pyget_last_inv in H. exact H. Qed.
Lemma open_fun d r r' : open_row d r -> open_row d r' -> r = r'.
Proof. intros A C. apply open_last in A. apply open_last in C. congruence. Qed.
Lemma provider_fdata d p : provider d p -> fdata_at d (-1) = Ok p.
Proof. intros (l & x & E & F). unfold fdata_at. rewrite E, pyget_last. cbn [bind]. now rewrite F. Qed.
Lemma fdata_provider d p : fdata_at d (-1) = Ok p -> provider d p.
Proof.
  unfold fdata_at. destruct (pyget (d_data d) (-1)) as [x| |] eqn:E; cbn [bind]; try discriminate.
  apply pyget_last_inv in E. destruct E as [l E]. destruct (dt_fdata x) eqn:F; [|discriminate]. cbn. intro H. injection H as ->.
  exists l, x. auto.
Qed.
Lemma provider_fun d p q : provider d p -> provider d q -> p = q.
Proof. intros A C. apply provider_fdata in A. apply provider_fdata in C. congruence. Qed.

(* ---------- one memoisation ---------- *)
(* what the file has for object k *)
Definition disk (row : list slot) (p : prov) (k : Z) : res obj :=
  let* s := pyget row k in
  if k =? 0 then let* d := trailers p (match s with SList l => l | _ => [s] end) [] in Ok (PDict d)
  else match s with
       | SDict e =>
           match n_env e with
           | None => parse_at p e
           | Some c =>
               let* cs := pyget row c in
               let* ce := as_dict cs in
               let* so := parse_at p ce in
               match so with
               | PStream d st _ => let* l := parse_object_stream d st c in
                                   Ok (match member k l with Some v => v | None => PNone end)
               | _ => Exc ETypeError
               end
           end
       | _ => Exc ETypeError
       end.

Definition is_live (row : list slot) (k : Z) : Prop := exists s, cell row k s /\ deleted_in s = Ok false.
(* a filled cache: only live objects without value got one, the one of the file *)
Definition filled (row : list slot) (p : prov) (c c' : list obj) : Prop :=
  length c' = length c /\
  forall k x', cell c' k x' -> exists x, cell c k x /\ (x' = x \/ (x = PNone /\ is_live row k /\ disk row p k = Ok x')).

Lemma filled_refl row p c : filled row p c c.
Proof. split; [auto|]. intros k x H. exists x. auto. Qed.
Lemma filled_trans row p a b c : filled row p a b -> filled row p b c -> filled row p a c.
Proof.
  intros [L1 F1] [L2 F2]. split; [congruence|]. intros k x H. destruct (F2 _ _ H) as (y & Cy & Hy).
  destruct (F1 _ _ Cy) as (z & Cz & Hz). exists z. split; [auto|].
  destruct Hy as [->|(-> & L & D)]; [auto|]. destruct Hz as [->|(-> & L' & D')]; [auto|]. right. auto.
Qed.
Lemma filled_set row p c k v : 0 <= k -> cell c k PNone -> is_live row k -> disk row p k = Ok v ->
  filled row p c (lset c (Z.to_nat k) v).
Proof.
  intros K C L D. pose proof (cell_range _ _ _ C) as R. split; [apply lset_length|]. intros j x H.
  rewrite cell_lset in H by lia. destruct H as [[-> ->]|[N H]]; [|eauto]. exists PNone. auto.
Qed.
Lemma filled_same row p c k v : cell c k v -> filled row p c (lset c (Z.to_nat k) v).
Proof.
  intros C. pose proof (cell_range _ _ _ C) as R. split; [apply lset_length|]. intros j x H.
  rewrite cell_lset in H by lia. destruct H as [[-> ->]|[N H]]; [|eauto]. exists v. auto.
Qed.

Lemma grow_id c n : n < Z.of_nat (length c) -> grow c n = c.
Proof. intro H. unfold grow. now replace (Z.of_nat (length c) <=? n) with false by lia. Qed.

(* loading an intact stream *)
Lemma member_app k a b : member k (a ++ b) = match member k b with Some v => Some v | None => member k a end.
Proof.
  induction a as [|e a IH]; cbn [app member]; [now destruct (member k b)|]. rewrite IH. destruct (member k b); auto.
Qed.
Lemma put_embedded_filled row p env ce sd st en l0 : 0 < env -> cell row env (SDict ce) ->
  parse_at p ce = Ok (PStream sd st en) -> parse_object_stream sd st env = Ok l0 ->
  forall l pre c, l0 = pre ++ l ->
  Forall (fun e => exists n ne v, e_num e = PInt n /\ 0 < n /\ cell row n (SDict ne) /\
              n_del ne = false /\ n_env ne = Some env /\ cell c n v /\
              (v = PNone \/ member n l0 = Some v \/ member n pre = Some v)) l ->
  exists c', put_embedded c l = Ok c' /\ length c' = length c /\
    (forall k x, cell c' k x <-> match member k l with Some v => 0 <= k < Z.of_nat (length c) /\ x = v | None => cell c k x end).
Proof.
  intros E0 CE PA PO. induction l as [|e l IH]; intros pre c EQ F.
  - exists c. cbn [put_embedded member]. split; [auto|]. split; [auto|]. intros. tauto.
  - inversion F as [|? ? (n & ne & v & En & N0 & CN & DN & EV & CV & HV) F']; subst. cbn [put_embedded]. rewrite En.
    pose proof (cell_range _ _ _ CV) as R. rewrite grow_id by lia. rewrite pyset_ok by lia. cbn [bind].
    destruct (IH (pre ++ [e]) (lset c (Z.to_nat n) (e_obj e))) as (c' & P & L & H).
    { now rewrite <- app_assoc. }
    { eapply Forall_impl; [|exact F']. intros e' (m & me & w & A1 & A2 & A3 & A4 & A5 & A6 & A7).
      destruct (Z.eq_dec m n) as [->|NE].
      - exists n, me, (e_obj e). repeat (split; [assumption|]). split; [apply cell_lset; [lia|auto]|].
        right. right. rewrite member_app. cbn [member]. rewrite En, Z.eqb_refl. reflexivity.
      - exists m, me, w. repeat (split; [assumption|]). split; [apply cell_lset; [lia|auto]|].
        destruct A7 as [A7|[A7|A7]]; auto. right. right. rewrite member_app. cbn [member]. rewrite En.
        replace (n =? m) with false by lia. exact A7. }
    exists c'. rewrite lset_length in L. split; [exact P|]. split; [exact L|]. intros k x. rewrite H, lset_length. cbn [member].
    destruct (member k l); [tauto|]. rewrite En. rewrite cell_lset by lia.
    destruct (Z.eqb_spec n k) as [->|NE].
    + intuition (subst; auto; lia).
    + intuition (subst; auto; try lia).
Qed.

Lemma memoize_filled row p k cache cache' : 0 <= k ->
  (forall e c, cell row k (SDict e) -> n_del e = false -> n_env e = Some c -> stream_intact row p cache c) ->
  memoize row p k cache = Ok cache' ->
  filled row p cache cache' /\
  (forall x, cell cache k x -> is_live row k -> exists x', cell cache' k x' /\ (x <> PNone -> x' = x) /\ (x = PNone -> disk row p k = Ok x')).
Proof.
  intros K CO M. unfold memoize in M. destruct (pyget row k) as [s| |] eqn:Es; cbn [bind] in M; try discriminate.
  apply pyget_cell in Es; [|auto]. destruct (deleted_in s) as [del| |] eqn:Ed; cbn [bind] in M; try discriminate.
  destruct del.
  { injection M as <-. split; [apply filled_refl|]. intros x Cx (s' & C1 & C2). pose proof (cell_fun _ _ _ _ Es C1). congruence. }
  destruct (pyget cache k) as [c| |] eqn:Ec; cbn [bind] in M; try discriminate.
  apply pyget_cell in Ec; [|auto].
  assert (LV : is_live row k) by (exists s; auto).
  destruct (is_none c) eqn:En; cbn [negb] in M.
  2:{ injection M as <-. split; [apply filled_refl|]. intros x Cx _. exists x. split; [auto|]. split; [auto|]. intros ->.
      pose proof (cell_fun _ _ _ _ Ec Cx). subst. discriminate. }
  assert (c = PNone) by (destruct c; discriminate || auto). subst c.
  pose proof (cell_range _ _ _ Ec) as R.
  assert (DONE : forall v, disk row p k = Ok v -> cache' = lset cache (Z.to_nat k) v ->
    filled row p cache cache' /\
    (forall x, cell cache k x -> is_live row k -> exists x', cell cache' k x' /\ (x <> PNone -> x' = x) /\ (x = PNone -> disk row p k = Ok x'))).
  { intros v D ->. split; [apply filled_set; auto|]. intros x Cx _. exists v. split; [apply cell_lset; [lia|auto]|].
    split; [|auto]. pose proof (cell_fun _ _ _ _ Ec Cx). congruence. }
  assert (PG : pyget row k = Ok s) by (apply pyget_cell; auto).
  destruct (k =? 0) eqn:E0.
  { destruct (trailers p _ []) as [d| |] eqn:Et; cbn [bind] in M; try discriminate.
    apply pyset_inv in M; [|auto]. destruct M as [-> _]. apply (DONE (PDict d)); [|auto].
    unfold disk. rewrite PG. cbn [bind]. rewrite E0, Et. reflexivity. }
  destruct s as [|e|]; try discriminate. destruct (n_env e) as [ct|] eqn:Ev.
  2:{ destruct (parse_at p e) as [o| |] eqn:Ep; cbn [bind] in M; try discriminate.
      apply pyset_inv in M; [|auto]. destruct M as [-> _]. apply (DONE o); [|auto].
      unfold disk. rewrite PG. cbn [bind]. rewrite E0, Ev. exact Ep. }
  injection Ed as Ed. destruct (CO e ct Es Ed Ev) as (ce & sd & st & en & l & C0 & CE & CD & CV & PA & PO & CC & FA).
  assert (PC : pyget row ct = Ok (SDict ce)) by (apply pyget_cell; auto; lia).
  rewrite PC in M. cbn [bind as_dict] in M. rewrite PA in M. cbn [bind] in M.
  assert (R2 : 0 <= ct < Z.of_nat (length cache)) by (destruct CC as [CC|CC]; apply cell_range in CC; lia).
  rewrite grow_id in M by lia. rewrite pyset_ok in M by lia. cbn [bind] in M. rewrite PO in M. cbn [bind] in M.
  assert (NCT : ct <> k) by (intros ->; pose proof (cell_fun _ _ _ _ Es CE) as X; injection X as ->; congruence).
  destruct (put_embedded_filled row p ct ce sd st en l C0 CE PA PO l [] (lset cache (Z.to_nat ct) (PStream sd st en)) eq_refl) as (c' & PE & L & H).
  { eapply Forall_impl; [|exact FA]. intros x (n & ne & v & A1 & A2 & A3 & A4 & A5 & A6 & A7).
    exists n, ne, v. repeat (split; [assumption|]). split; [|tauto].
    apply cell_lset; [lia|]. right. split; [|exact A6]. intros ->. pose proof (cell_fun _ _ _ _ A3 CE) as X. injection X as ->. congruence. }
  rewrite PE in M. injection M as <-. rewrite lset_length in *.
  assert (DK : forall n ne, n <> 0 -> cell row n (SDict ne) -> n_env ne = Some ct ->
      disk row p n = Ok (match member n l with Some v => v | None => PNone end)).
  { intros n ne N0 CN EV. unfold disk. assert (PN : pyget row n = Ok (SDict ne)) by (apply pyget_cell; auto; destruct CN; auto).
    rewrite PN. cbn [bind]. replace (n =? 0) with false by lia. rewrite EV, PC. cbn [bind as_dict]. rewrite PA. cbn [bind]. rewrite PO. reflexivity. }
  split.
  - split; [auto|]. intros j x' C'. apply H in C'. destruct (member j l) as [v|] eqn:Em.
    + destruct C' as [Rj ->].
      assert (X : exists e1, In e1 l /\ e_num e1 = PInt j).
      { clear -Em. induction l as [|a l IH]; [discriminate|]. cbn [member] in Em. destruct (member j l).
        - destruct (IH Em) as (e1 & I1 & I2). exists e1. split; [now right|auto].
        - destruct (e_num a) eqn:En; try discriminate. destruct (Z.eqb_spec z j); [|discriminate]. subst. exists a. split; [now left|auto]. }
      destruct X as (e1 & I1 & I2). rewrite Forall_forall in FA. destruct (FA e1 I1) as (n & ne & w & A1 & A2 & A3 & A4 & A5 & A6 & A7).
      rewrite I2 in A1. injection A1 as <-. exists w. split; [auto|]. destruct A7 as [->|A7]; [|left; congruence]. right. split; [auto|].
      split; [exists (SDict ne); split; [auto|cbn; congruence]|]. rewrite (DK j ne) by (auto; lia). now rewrite Em.
    + apply cell_lset in C'; [|lia]. destruct C' as [[-> ->]|[N C']]; [|eauto].
      destruct CC as [CC|CC]; [|eauto]. exists PNone. split; [auto|]. right. split; [auto|]. split; [exists (SDict ce); split; [auto|cbn; congruence]|].
      unfold disk. rewrite PC. cbn [bind]. replace (ct =? 0) with false by lia. now rewrite CV.
  - intros x Cx _. pose proof (cell_fun _ _ _ _ Ec Cx). subst x.
    exists (match member k l with Some v => v | None => PNone end). split; [|split; [congruence|]].
    + apply H. destruct (member k l); [split; [lia|auto]|]. apply cell_lset; [lia|]. right. auto.
    + intros _. apply (DK k e); auto. lia.
Qed.

(* ---------- values ---------- *)
Lemma value_eq d n row p : open_row d row -> provider d p ->
  value d n = (let* c := memoize row p n (d_cache d) in pyget c n).
Proof.
  intros O P. unfold value, get_object. rewrite (open_last _ _ O), (provider_fdata _ _ P). cbn [bind].
  destruct (memoize row p n (d_cache d)) as [c| |]; cbn [bind]; auto. destruct (pyget c n); auto.
Qed.
Lemma coherent_intact d row p : coherent d -> open_row d row -> provider d p ->
  forall n e c, cell row n (SDict e) -> n_del e = false -> n_env e = Some c -> stream_intact row p (d_cache d) c.
Proof. intros C O P n e c. exact (C row p O P n e c). Qed.

(* the value as a function of the cell, the cache and the file *)
Definition value_of (row : list slot) (p : prov) (cache : list obj) (n : Z) : res obj :=
  let* s := pyget row n in
  let* del := deleted_in s in
  let* c := pyget cache n in
  if del then Ok c
  else if is_none c then disk row p n else Ok c.

Lemma value_is d n row p : open_row d row -> provider d p -> coherent d -> 0 <= n ->
  value d n = value_of row p (d_cache d) n.
Proof.
  intros O P C N. rewrite (value_eq d n row p O P). unfold value_of.
  destruct (memoize row p n (d_cache d)) as [c'| |] eqn:M; cbn [bind].
  - pose proof (memoize_filled row p n (d_cache d) c' N (C row p O P n) M) as [[L F] V].
    unfold memoize in M. destruct (pyget row n) as [s| |] eqn:Es; cbn [bind] in *; try discriminate.
    destruct (deleted_in s) as [del| |] eqn:Ed; cbn [bind] in *; try discriminate.
    destruct (cell_dec (d_cache d) n N) as [[x Cx]|Bad].
    + assert (Px : pyget (d_cache d) n = Ok x) by (apply pyget_cell; auto). rewrite Px. cbn [bind].
      destruct del; [injection M as <-; auto|].
      apply pyget_cell in Es; [|auto]. destruct (V x Cx) as (x' & C' & H1 & H2); [exists s; auto|].
      apply pyget_cell in C'; [|auto]. rewrite C'. destruct (is_none x) eqn:Ex.
      * assert (x = PNone) by (destruct x; discriminate || auto). rewrite H2 by auto. reflexivity.
      * rewrite H1; [reflexivity|]. intros ->. discriminate.
    + rewrite Bad in *. cbn [bind] in *. destruct del; [injection M as <-; auto|discriminate].
  - unfold memoize in M. destruct (pyget row n) as [s| |] eqn:Es; cbn [bind] in *; try congruence.
    destruct (deleted_in s) as [del| |] eqn:Ed; cbn [bind] in *; try congruence.
    destruct del; [discriminate|]. destruct (pyget (d_cache d) n) as [x| |] eqn:Px; cbn [bind] in *; try congruence.
    destruct (is_none x); cbn [negb] in M; [|discriminate]. unfold disk. rewrite Es. cbn [bind].
    apply pyget_cell in Px; [|auto]. pose proof (cell_range _ _ _ Px).
    destruct (n =? 0).
    { destruct (trailers p _ []) as [z| |]; cbn [bind] in *; try congruence. rewrite pyset_ok in M by lia. discriminate. }
    destruct s as [|en|]; try congruence. destruct (n_env en) as [ct|] eqn:Ev.
    + apply pyget_cell in Es; [|auto]. injection Ed as Ed.
      destruct (C row p O P n en ct Es Ed Ev) as (ce & sd & st & sn & l & C0 & CE & CD & CV & PA & PO & CC & FA).
      assert (PC : pyget row ct = Ok (SDict ce)) by (apply pyget_cell; auto; lia). rewrite PC in *. cbn [bind as_dict] in *.
      rewrite PA in *. cbn [bind] in *. rewrite PO in *. cbn [bind] in *. exfalso.
      assert (R2 : 0 <= ct < Z.of_nat (length (d_cache d))) by (destruct CC as [CC|CC]; apply cell_range in CC; lia).
      rewrite grow_id in M by lia. rewrite pyset_ok in M by lia. cbn [bind] in M.
      destruct (put_embedded_filled row p ct ce sd st sn l C0 CE PA PO l [] (lset (d_cache d) (Z.to_nat ct) (PStream sd st sn)) eq_refl) as (c' & PE & _).
      { eapply Forall_impl; [|exact FA]. intros z (m & ne & v & A1 & A2 & A3 & A4 & A5 & A6 & A7).
        exists m, ne, v. repeat (split; [assumption|]). split; [|tauto].
        apply cell_lset; [lia|]. right. split; [|exact A6]. intros ->. pose proof (cell_fun _ _ _ _ A3 CE) as X. injection X as ->. congruence. }
      congruence.
    + destruct (parse_at p en) as [o| |]; cbn [bind] in *; try congruence. rewrite pyset_ok in M by lia. discriminate.
  - unfold memoize in M. destruct (pyget row n) as [s| |] eqn:Es; cbn [bind] in *; try congruence.
    destruct (deleted_in s) as [del| |] eqn:Ed; cbn [bind] in *; try congruence.
    destruct del; [discriminate|]. destruct (pyget (d_cache d) n) as [x| |] eqn:Px; cbn [bind] in *; try congruence.
    destruct (is_none x); cbn [negb] in M; [|discriminate]. unfold disk. rewrite Es. cbn [bind].
    apply pyget_cell in Px; [|auto]. pose proof (cell_range _ _ _ Px).
    destruct (n =? 0).
    { destruct (trailers p _ []) as [z| |]; cbn [bind] in *; try congruence. rewrite pyset_ok in M by lia. discriminate. }
    destruct s as [|en|]; try congruence. destruct (n_env en) as [ct|] eqn:Ev.
    + apply pyget_cell in Es; [|auto]. injection Ed as Ed.
      destruct (C row p O P n en ct Es Ed Ev) as (ce & sd & st & sn & l & C0 & CE & CD & CV & PA & PO & CC & FA).
      assert (PC : pyget row ct = Ok (SDict ce)) by (apply pyget_cell; auto; lia). rewrite PC in *. cbn [bind as_dict] in *.
      rewrite PA in *. cbn [bind] in *. rewrite PO in *. cbn [bind] in *. exfalso.
      assert (R2 : 0 <= ct < Z.of_nat (length (d_cache d))) by (destruct CC as [CC|CC]; apply cell_range in CC; lia).
      rewrite grow_id in M by lia. rewrite pyset_ok in M by lia. cbn [bind] in M.
      destruct (put_embedded_filled row p ct ce sd st sn l C0 CE PA PO l [] (lset (d_cache d) (Z.to_nat ct) (PStream sd st sn)) eq_refl) as (c' & PE & _).
      { eapply Forall_impl; [|exact FA]. intros z (m & ne & v & A1 & A2 & A3 & A4 & A5 & A6 & A7).
        exists m, ne, v. repeat (split; [assumption|]). split; [|tauto].
        apply cell_lset; [lia|]. right. split; [|exact A6]. intros ->. pose proof (cell_fun _ _ _ _ A3 CE) as X. injection X as ->. congruence. }
      congruence.
    + destruct (parse_at p en) as [o| |]; cbn [bind] in *; try congruence. rewrite pyset_ok in M by lia. discriminate.
Qed.

Lemma value_of_filled row p c c' n : 0 <= n -> filled row p c c' -> value_of row p c' n = value_of row p c n.
Proof.
  intros N [L F]. unfold value_of. destruct (pyget row n) as [s| |] eqn:Es; cbn [bind]; auto.
  destruct (deleted_in s) as [del| |] eqn:Ed; cbn [bind]; auto.
  destruct (cell_dec c' n N) as [[x' Cx]|Bad].
  - destruct (F _ _ Cx) as (x & C0 & H). apply pyget_cell in Cx; [|auto]. rewrite Cx.
    apply pyget_cell in C0; [|auto]. rewrite C0. cbn [bind]. destruct H as [->|(-> & (s' & LV & LD) & D)]; [auto|].
    apply pyget_cell in Es; [|auto]. pose proof (cell_fun _ _ _ _ Es LV). subst s'. rewrite Ed in LD. injection LD as ->.
    cbn [is_none]. rewrite D. destruct (is_none x') eqn:E; [auto|]. reflexivity.
  - rewrite Bad. destruct (cell_dec c n N) as [[x Cx]|Bad2]; [|now rewrite Bad2].
    apply cell_range in Cx. destruct (pyget_range c' n) as [y Cy]; [lia|]. apply pyget_cell in Cy; [|auto]. congruence.
Qed.
Lemma intact_filled row p c c' ct : filled row p c c' -> stream_intact row p c ct -> stream_intact row p c' ct.
Proof.
  intros [L F] (ce & sd & st & en & l & C0 & CE & CD & CV & PA & PO & CC & FA).
  exists ce, sd, st, en, l. repeat (split; [assumption|]).
  assert (GET : forall k x, cell c k x -> exists x', cell c' k x' /\ (x' = x \/ (x = PNone /\ is_live row k /\ disk row p k = Ok x'))).
  { intros k x H. pose proof (cell_range _ _ _ H). destruct (pyget_range c' k) as [x' C']; [lia|]. exists x'. split; [auto|].
    destruct (F _ _ C') as (y & Cy & Hy). pose proof (cell_fun _ _ _ _ H Cy). now subst y. }
  assert (PC : pyget row ct = Ok (SDict ce)) by (apply pyget_cell; auto; lia). split.
  - destruct CC as [CC|CC]; destruct (GET _ _ CC) as (x' & C' & [->|(_ & _ & D)]); auto.
    + right. unfold disk in D. rewrite PC in D. cbn [bind] in D. replace (ct =? 0) with false in D by lia.
      rewrite CV, PA in D. injection D as <-. exact C'.
    + right. unfold disk in D. rewrite PC in D. cbn [bind] in D. replace (ct =? 0) with false in D by lia.
      rewrite CV, PA in D. injection D as <-. exact C'.
  - rewrite Forall_forall in *. intros e I. destruct (FA e I) as (n & ne & v & A1 & A2 & A3 & A4 & A5 & A6 & A7).
    destruct (GET _ _ A6) as (x' & C' & H). exists n, ne, x'. repeat (split; [assumption|]).
    destruct H as [->|(-> & _ & D)]; [auto|]. unfold disk in D.
    assert (PN : pyget row n = Ok (SDict ne)) by (apply pyget_cell; auto; lia). rewrite PN in D. cbn [bind] in D.
    replace (n =? 0) with false in D by lia. rewrite A5, PC in D. cbn [bind as_dict] in D. rewrite PA in D. cbn [bind] in D.
    rewrite PO in D. cbn [bind] in D. destruct (member n l); injection D as <-; auto.
Qed.

Lemma get_object_step d g n v d1 : 0 <= n -> coherent d -> get_object d (PRef g n) = Ok (v, d1) ->
  exists row p, open_row d row /\ provider d p /\ d1 = with_cache d (d_cache d1) /\
    filled row p (d_cache d) (d_cache d1) /\ value d n = Ok v.
Proof.
  intros N C H. assert (V : value d n = Ok v).
  { unfold value. unfold get_object in *. rewrite H. reflexivity. }
  unfold get_object in H. destruct (last_row d) as [row| |] eqn:Er; cbn [bind] in H; try discriminate.
  destruct (fdata_at d (-1)) as [p| |] eqn:Ep; cbn [bind] in H; try discriminate.
  destruct (memoize row p n (d_cache d)) as [c'| |] eqn:M; cbn [bind] in H; try discriminate.
  destruct (pyget c' n) as [w| |] eqn:Pg; cbn [bind] in H; try discriminate. injection H as -> <-.
  apply last_open in Er. apply fdata_provider in Ep. exists row, p. split; [auto|]. split; [auto|]. split; [reflexivity|].
  split; [|exact V]. apply (memoize_filled row p n (d_cache d) c' N (C row p Er Ep n) M).
Qed.
Lemma coherent_filled d row p c' : open_row d row -> provider d p -> coherent d -> filled row p (d_cache d) c' -> coherent (with_cache d c').
Proof.
  intros O P C F row' p' O' P' n e ct Ce De Ee.
  assert (row' = row) by (apply (open_fun d); auto). assert (p' = p) by (apply (provider_fun d); auto). subst.
  cbn [with_cache d_cache]. eapply intact_filled; [exact F|]. exact (C row p O P n e ct Ce De Ee).
Qed.

(* reads never change what is read *)
Theorem reads_stable d l d' : coherent d -> doc_reads d l d' -> coherent d' /\ forall n, 0 <= n -> value d' n = value d n.
Proof.
  intros C R. induction R as [d|d n l g v d1 d2 N G R IH]; [auto|].
  destruct (get_object_step d g n v d1 N C G) as (row & p & O & P & E & F & _).
  assert (C1 : coherent d1) by (rewrite E; now apply (coherent_filled d row p)).
  destruct (IH C1) as [C2 V2]. split; [exact C2|]. intros k K. rewrite (V2 k K).
  assert (O1 : open_row d1 row) by (rewrite E; exact O). assert (P1 : provider d1 p) by (rewrite E; exact P).
  rewrite (value_is d1 k row p O1 P1 C1 K), (value_is d k row p O P C K). now apply value_of_filled.
Qed.
Lemma plain_coherent d : plain d -> coherent d.
Proof. intros PL row p O P n e c Ce De Ee. specialize (PL row n e O Ce). congruence. Qed.

(* ---------- edits ---------- *)
Lemma update_inv d n o d' : 0 <= n -> update_object d n o = Ok d' ->
  exists l row old ov, d_index d = l ++ [row] /\ cell row n (SDict old) /\ n_over old = Some ov /\
    0 <= n < Z.of_nat (length (d_cache d)) /\
    d' = mk_doc (l ++ [lset row (Z.to_nat n) (SDict (with_del (is_none o) (with_dver (Some (Z.of_nat (length (d_index d)) - 1))
              (with_over (Some (ov + 1)) (ient0 n (n_gen old))))))]) (lset (d_cache d) (Z.to_nat n) o) (d_data d).
Proof.
  intros N H. unfold update_object in H. destruct (last_row d) as [row| |] eqn:Er; cbn [bind] in H; try discriminate.
  apply last_open in Er. destruct Er as [l El].
  destruct (pyget row n) as [s| |] eqn:Es; cbn [bind] in H; try discriminate. apply pyget_cell in Es; [|auto].
  destruct s as [|old|]; cbn [as_dict bind] in H; try discriminate.
  destruct (n_over old) as [ov|] eqn:Eo; cbn [of_opt bind] in H; try discriminate.
  pose proof (cell_range _ _ _ Es) as R. rewrite pyset_ok in H by lia. cbn [bind] in H.
  unfold set_last_row in H. rewrite El, pyset_last in H. cbn [bind d_cache] in H.
  destruct (pyset (d_cache d) n o) as [c| |] eqn:Ec; cbn [bind] in H; try discriminate.
  apply pyset_inv in Ec; [|auto]. destruct Ec as [-> Lc]. injection H as <-.
  exists l, row, old, ov. split; [auto|]. split; [auto|]. split; [auto|]. split; [lia|]. rewrite <- El. reflexivity.
Qed.
Lemma value_of_same row row' p c c' n :
  pyget row' n = pyget row n -> pyget c' n = pyget c n ->
  (forall e ct, cell row n (SDict e) -> n_del e = false -> n_env e = Some ct -> pyget row' ct = pyget row ct) -> 0 <= n ->
  value_of row' p c' n = value_of row p c n.
Proof.
  intros R C E N. unfold value_of, disk. rewrite R, C. destruct (pyget row n) as [s| |] eqn:Es; cbn [bind]; auto.
  apply pyget_cell in Es; [|auto]. destruct s as [|e|]; auto.
  cbn [deleted_in bind]. destruct (n_del e) eqn:Ed; [reflexivity|]. destruct (n_env e) as [ct|] eqn:Ev; auto. rewrite (E e ct Es Ed Ev). reflexivity.
Qed.
Lemma cells_pyget {A} (l l' : list A) n : 0 <= n -> (forall x, cell l' n x <-> cell l n x) -> pyget l' n = pyget l n.
Proof.
  intros N H. destruct (cell_dec l n N) as [[x C]|Bad].
  - assert (C' : cell l' n x) by (apply H; auto). apply pyget_cell in C; [|auto]. apply pyget_cell in C'; [|auto]. congruence.
  - destruct (cell_dec l' n N) as [[x C']|Bad']; [|congruence]. apply H in C'. apply pyget_cell in C'; [|auto]. congruence.
Qed.

(* after an update, and any reads *)
Theorem update_reads d n o d1 l d2 : 0 < n -> update_object d n o = Ok d1 -> (exists p, provider d p) -> coherent d -> coherent d1 -> doc_reads d1 l d2 ->
  value d2 n = Ok o /\ forall k, 0 <= k -> k <> n -> value d2 k = value d k.
Proof.
  intros N U [p P] C C1 R. destruct (reads_stable d1 l d2 C1 R) as [_ V].
  destruct (update_inv d n o d1) as (lx & row & old & ov & El & Ce & Eo & RC & ->); [lia|auto|].
  set (e1 := with_del _ _) in *. set (row1 := lset row (Z.to_nat n) (SDict e1)) in *.
  set (d1 := mk_doc _ _ _) in *.
  assert (O : open_row d row) by (exists lx; auto). assert (O1 : open_row d1 row1) by (exists lx; auto).
  assert (P1 : provider d1 p) by exact P. pose proof (cell_range _ _ _ Ce) as RR. split.
  - rewrite V by lia. rewrite (value_is d1 n row1 p O1 P1 C1) by lia. unfold value_of.
    assert (A : pyget row1 n = Ok (SDict e1)) by (apply pyget_cell; [lia|]; apply cell_lset; [lia|auto]).
    assert (A2 : pyget (d_cache d1) n = Ok o) by (apply pyget_cell; [lia|]; apply cell_lset; [lia|auto]).
    rewrite A, A2. cbn [bind deleted_in]. change (n_del e1) with (is_none o). destruct (is_none o) eqn:E; auto.
  - intros k K NE. rewrite V by lia. rewrite (value_is d1 k row1 p O1 P1 C1 K), (value_is d k row p O P C K).
    apply value_of_same; auto.
    + apply cells_pyget; [auto|]. intro x. unfold row1. rewrite cell_lset by lia. intuition.
    + apply cells_pyget; [auto|]. intro x. unfold d1. cbn [d_cache]. rewrite cell_lset by lia. intuition.
    + intros e ct Ck Ed Ev.
      assert (Ck1 : cell row1 k (SDict e)) by (unfold row1; rewrite cell_lset by lia; auto).
        destruct (C1 row1 p O1 P1 k e ct Ck1 Ed Ev) as (ce & sd & st & en & l1 & C0 & CE & CD & CV & PA & _).
        destruct (Z.eq_dec ct n) as [->|NC].
        -- unfold row1 in CE. rewrite cell_lset in CE by lia. destruct CE as [[_ CE]|[CE _]]; [|congruence]. injection CE as ->.
           unfold parse_at, entry_bytes, pos_int, e1 in PA. cbn in PA. discriminate.
        -- apply cells_pyget; [lia|]. intro x. unfold row1. rewrite cell_lset by lia. intuition.
Qed.

(* an update of an object that is neither in a stream nor a stream that holds objects *)
Lemma update_coherent d n o d1 : 0 < n -> update_object d n o = Ok d1 -> coherent d ->
  (forall row e, open_row d row -> cell row n (SDict e) -> n_env e = None) ->
  (forall row k e, open_row d row -> cell row k (SDict e) -> n_del e = false -> n_env e <> Some n) ->
  coherent d1.
Proof.
  intros N U C H1 H2. destruct (update_inv d n o d1) as (lx & row & old & ov & El & Ce & Eo & RC & ->); [lia|auto|].
  set (e1 := with_del _ _) in *. set (row1 := lset row (Z.to_nat n) (SDict e1)) in *. set (d1 := mk_doc _ _ _) in *.
  assert (O : open_row d row) by (exists lx; auto). assert (O1 : open_row d1 row1) by (exists lx; auto).
  pose proof (cell_range _ _ _ Ce) as RR.
  intros row' p O' P k e c Ck Dk Ek. assert (row' = row1) by (apply (open_fun d1); auto). subst row'.
  assert (P0 : provider d p) by exact P. unfold row1 in Ck. rewrite cell_lset in Ck by lia.
  destruct Ck as [[-> X]|[NK Ck]]; [injection X as ->; discriminate Ek|].
  assert (NC : c <> n) by (intros ->; exact (H2 row k e O Ck Dk Ek)).
  destruct (C row p O P0 k e c Ck Dk Ek) as (ce & sd & st & en & l & C0 & CE & CD & CV & PA & PO & CC & FA).
  exists ce, sd, st, en, l. split; [auto|]. split; [unfold row1; rewrite cell_lset by lia; auto|]. repeat (split; [assumption|]). split.
  - cbn [d_cache d1]. rewrite !cell_lset by lia. tauto.
  - eapply Forall_impl; [|exact FA]. intros x (m & ne & v & A1 & A2 & A3 & A4 & A5 & A6 & A7).
    assert (m <> n) by (intros ->; rewrite (H1 row ne O A3) in A5; discriminate).
    exists m, ne, v. repeat (split; [assumption|]). split; [unfold row1; rewrite cell_lset by lia; auto|].
    repeat (split; [assumption|]). split; [|assumption]. cbn [d_cache d1]. rewrite cell_lset by lia. auto.
Qed.

Lemma add_inv d o d1 r : add_object d o = Ok (d1, r) ->
  exists l row, d_index d = l ++ [row] /\ (Z.of_nat (length row) <= Z.of_nat (length (d_cache d))) /\
    r = (0, Z.of_nat (length row)) /\
    d1 = mk_doc (l ++ [row ++ [SDict (with_dver (Some (Z.of_nat (length (d_index d)) - 1)) (with_over (Some 0) (ient0 (Z.of_nat (length row)) 0)))]])
                (lset (d_cache d ++ [PNone]) (length row) o) (d_data d).
Proof.
  unfold add_object. destruct (last_row d) as [row| |] eqn:Er; cbn [bind]; try discriminate.
  apply last_open in Er. destruct Er as [l El]. unfold set_last_row. rewrite El, pyset_last. cbn [bind d_cache].
  destruct (pyset (d_cache d ++ [PNone]) (Z.of_nat (length row)) o) as [c| |] eqn:Ec; cbn [bind]; try discriminate.
  apply pyset_inv in Ec; [|lia]. destruct Ec as [-> Lc]. rewrite app_length in Lc. cbn [length] in Lc. intro H. injection H as <- <-.
  exists l, row. split; [auto|]. split; [lia|]. split; [auto|]. unfold with_cache. cbn [d_index d_data]. rewrite Nat2Z.id. rewrite <- El. reflexivity.
Qed.
Lemma cell_snoc {A} (l : list A) y n x : cell (l ++ [y]) n x <-> cell l n x \/ (n = Z.of_nat (length l) /\ x = y).
Proof.
  unfold cell. destruct (Z_lt_ge_dec n (Z.of_nat (length l))).
  - split.
    + intros [Z0 E]. rewrite nth_error_app1 in E by lia. auto.
    + intros [[Z0 E]|[-> _]]; [|lia]. rewrite nth_error_app1 by lia. auto.
  - split.
    + intros [Z0 E]. right. rewrite nth_error_app2 in E by lia.
      destruct (Z.to_nat n - length l)%nat as [|k] eqn:K; cbn in E; [|destruct k; discriminate]. split; [lia|congruence].
    + intros [[Z0 E]|[-> ->]]; [|split; [lia|rewrite nth_error_app2 by lia; now replace (_ - _)%nat with 0%nat by lia]].
      exfalso. assert (Z.to_nat n < length l)%nat by (apply nth_error_Some; congruence). lia.
Qed.
Lemma cell_nat_set {A} (l : list A) i v k x : (i < length l)%nat -> cell (lset l i v) k x <-> (k = Z.of_nat i /\ x = v) \/ (k <> Z.of_nat i /\ cell l k x).
Proof. intro H. rewrite <- (cell_lset l (Z.of_nat i) v k x) by lia. now rewrite Nat2Z.id. Qed.

(* a new object *)
Theorem add_fresh d o d1 r : add_object d o = Ok (d1, r) -> (forall row, open_row d row -> length (d_cache d) = length row) ->
  (exists p, provider d p) -> coherent d -> o <> PNone ->
  exists l row, d_index d = l ++ [row] /\ r = (0, Z.of_nat (length row)) /\
    (exists e, d_index d1 = l ++ [row ++ [SDict e]]) /\ d_data d1 = d_data d /\ coherent d1 /\
    value d1 (snd r) = Ok o /\ (forall k, 0 <= k < snd r -> value d1 k = value d k) /\
    length (d_cache d1) = length (row ++ [SNone]).
Proof.
  intros A L [p P] C NO. destruct (add_inv d o d1 r A) as (l & row & El & Lc & -> & ->).
  assert (O : open_row d row) by (exists l; auto). specialize (L row O).
  set (e1 := with_dver _ _) in *. set (row1 := row ++ [SDict e1]) in *. set (d1 := mk_doc _ _ _) in *.
  assert (O1 : open_row d1 row1) by (exists l; auto). assert (P1 : provider d1 p) by exact P.
  assert (LC : length (d_cache d ++ [PNone]) = S (length row)) by (rewrite app_length; cbn; lia).
  assert (CC : forall k x, cell (d_cache d1) k x <-> (k = Z.of_nat (length row) /\ x = o) \/ cell (d_cache d) k x).
  { intros k x. cbn [d1 d_cache]. rewrite cell_nat_set by lia. rewrite cell_snoc, L. split; [tauto|]. intros [H|H]; [auto|].
    pose proof (cell_range _ _ _ H). right. split; [lia|auto]. }
  assert (RR : forall k x, cell row1 k x <-> cell row k x \/ (k = Z.of_nat (length row) /\ x = SDict e1)) by (intros; apply cell_snoc).
  assert (C1 : coherent d1).
  { intros row' p' O' P' k e c Ck Dk Ek. assert (row' = row1) by (apply (open_fun d1); auto). subst row'.
    assert (P0 : provider d p') by exact P'. apply RR in Ck. destruct Ck as [Ck|[_ X]]; [|injection X as ->; discriminate].
    destruct (C row p' O P0 k e c Ck Dk Ek) as (ce & sd & st & en & lm & C0 & CE & CD & CV & PA & PO & CX & FA).
    exists ce, sd, st, en, lm. split; [auto|]. split; [apply RR; auto|]. repeat (split; [assumption|]). split.
    - rewrite !CC. tauto.
    - eapply Forall_impl; [|exact FA]. intros x (m & ne & v & A1 & A2 & A3 & A4 & A5 & A6 & A7).
      exists m, ne, v. repeat (split; [assumption|]). split; [apply RR; auto|]. repeat (split; [assumption|]). split; [|assumption]. apply CC. auto. }
  exists l, row. split; [auto|]. split; [auto|]. split; [exists e1; reflexivity|]. split; [reflexivity|]. split; [exact C1|]. cbn [snd]. split; [|split].
  - rewrite (value_is d1 _ row1 p O1 P1 C1) by lia. unfold value_of.
    assert (X1 : pyget row1 (Z.of_nat (length row)) = Ok (SDict e1)) by (apply pyget_cell; [lia|]; apply RR; auto).
    assert (X2 : pyget (d_cache d1) (Z.of_nat (length row)) = Ok o) by (apply pyget_cell; [lia|]; apply CC; auto).
    rewrite X1, X2. cbn [bind deleted_in]. change (n_del e1) with false. cbv iota. destruct o; congruence || reflexivity.
  - intros k K. rewrite (value_is d1 k row1 p O1 P1 C1), (value_is d k row p O P C) by lia. apply value_of_same; [| | |lia].
    + apply cells_pyget; [lia|]. intro x. rewrite RR. split; [intros [H|[-> _]]; [auto|lia]|auto].
    + apply cells_pyget; [lia|]. intro x. rewrite CC. split; [intros [[-> _]|H]; [lia|auto]|auto].
    + intros e ct Ck Dk Ek. destruct (C row p O P k e ct Ck Dk Ek) as (ce & sd & st & en & lm & C0 & CE & _).
      pose proof (cell_range _ _ _ CE). apply cells_pyget; [lia|]. intro x. rewrite RR. split; [intros [H'|[-> _]]; [auto|lia]|auto].
  - cbn [d1 d_cache]. rewrite lset_length, LC, app_length. cbn. lia.
Qed.

(* ---------- changes ---------- *)
Lemma oz_eqb_eq a b : oz_eqb a b = true <-> a = b.
Proof. destruct a, b; cbn; try (split; [discriminate|congruence]); [|tauto]. rewrite Z.eqb_eq. split; congruence. Qed.
Lemma apos_eqb_eq a b : apos_eqb a b = true <-> a = b.
Proof. destruct a, b; cbn; rewrite ?andb_true_iff, ?Z.eqb_eq; split; intuition congruence. Qed.
Lemma oapos_eqb_eq a b : oapos_eqb a b = true <-> a = b.
Proof. destruct a, b; cbn; try (split; [discriminate|congruence]); [|tauto]. rewrite apos_eqb_eq. split; congruence. Qed.
Lemma ref_eqb_eq a b : ref_eqb a b = true <-> a = b.
Proof. destruct a, b. unfold ref_eqb. cbn. rewrite andb_true_iff, !Z.eqb_eq. split; intuition congruence. Qed.
Lemma oref_eqb_eq a b : oref_eqb a b = true <-> a = b.
Proof. destruct a, b; cbn; try (split; [discriminate|congruence]); [|tauto]. rewrite ref_eqb_eq. split; congruence. Qed.
Lemma ient_eqb_eq a b : ient_eqb a b = true <-> a = b.
Proof.
  destruct a as [a1 a2 a3 a4 a5 a6 a7 a8 a9 a10 a11 a12 a13 a14 a15], b as [b1 b2 b3 b4 b5 b6 b7 b8 b9 b10 b11 b12 b13 b14 b15]. unfold ient_eqb, oz_eq. cbn [n_num n_gen n_over n_dver n_pos n_next n_env n_opos n_del n_xt n_xs n_xsn n_sx n_stm n_old].
  rewrite !andb_true_iff, !Z.eqb_eq, !oz_eqb_eq, oapos_eqb_eq, oref_eqb_eq, !Bool.eqb_true_iff. split.
  - intros [[[[[[[[[[[[[[-> ->] ->] ->] ->] ->] ->] ->] ->] ->] ->] ->] ->] ->] ->]. reflexivity.
  - intro H. injection H as -> -> -> -> -> -> -> -> -> -> -> -> -> -> ->. tauto.
Qed.
Lemma slot_eqb_eq : forall a b, (forall l, a <> SList l) -> slot_eqb a b = true <-> a = b.
Proof.
  intros [|e|l] [|f|m] H; cbn; try (split; congruence).
  rewrite ient_eqb_eq. split; congruence.
Qed.

Lemma map_res_concat {A C} (f : A -> res (list C)) l : (forall x, In x l -> exists y, f x = Ok y) ->
  exists r, map_res f l = Ok r /\ forall z, In z (concat r) <-> exists x y, In x l /\ f x = Ok y /\ In z y.
Proof.
  induction l as [|x l IH]; intro H; cbn [map_res].
  - exists []. split; [auto|]. cbn. split; [tauto|]. intros (x & y & [] & _).
  - destruct (H x (or_introl eq_refl)) as [y E]. destruct IH as (r & Er & Hr); [intros; apply H; now right|].
    rewrite E, Er. cbn [bind]. exists (y :: r). split; [auto|]. cbn [concat]. intro z. rewrite in_app_iff, Hr. split.
    + intros [I|(x' & y' & I & E' & I')]; [exists x, y; split; [now left|auto]|exists x', y'; split; [now right|auto]].
    + intros (x' & y' & [<-|I] & E' & I'); [left; congruence|right; eauto].
Qed.
Lemma in_zseq n k s : In k (zseq s n) <-> s <= k < s + Z.of_nat n.
Proof.
  revert s. induction n as [|n IH]; intro s; cbn [zseq In]; [lia|]. rewrite IH. lia.
Qed.
Lemma in_nums row k : In k (nums row) <-> 1 <= k < Z.of_nat (length row).
Proof. unfold nums. rewrite in_zseq. lia. Qed.

Lemma at_num_cell row n s : 0 <= n -> cell row n s -> at_num row n = s.
Proof. intros N [_ E]. unfold at_num. now apply nth_error_nth. Qed.
Lemma at_num_out row n : Z.of_nat (length row) <= n -> at_num row n = SNone.
Proof. intro H. unfold at_num. apply nth_overflow. lia. Qed.
Lemma at_num_in row n : 0 <= n < Z.of_nat (length row) -> cell row n (at_num row n).
Proof. intro H. destruct (pyget_range row n H) as [x C]. now rewrite (at_num_cell row n x) by (auto; lia). Qed.

Lemma change_of_spec current previous i : tidy current -> tidy previous -> 1 <= i < Z.of_nat (length current) ->
  (exists s0, cell current 0 s0 /\ s0 <> SNone) ->
  exists l, change_of current previous i = Ok l /\
  (forall c, In c l <-> exists e a, at_num current i = SDict e /\ ~ xref_object current i /\
      at_num previous i <> at_num current i /\ tagged (at_num previous i) (at_num current i) a /\ c = ((n_gen e, i), a)) /\
  (length l <= 1)%nat.
Proof.
  intros TC TP R (s0 & C0 & NS). pose proof (at_num_in current i ltac:(lia)) as CI. set (c := at_num current i) in *.
  unfold change_of, get_iref. assert (PI : pyget current i = Ok c) by (apply pyget_cell; auto; lia). rewrite PI. cbn [bind].
  destruct c as [|e|l] eqn:Ec.
  - exists []. split; [auto|]. split; [|cbn; lia]. intro x. cbn. split; [tauto|]. intros (e & a & X & _). discriminate X.
  - cbn [as_dict bind]. assert (P0 : pyget current 0 = Ok s0) by (apply pyget_cell; auto; lia). rewrite P0. cbn [bind].
    assert (XR : exists xs : bool, (match s0 with
                 | SNone => Exc ETypeError
                 | SDict e => Ok (match n_xsn e with Some x => x =? i | None => false end)
                 | SList _ => Ok false
                 end) = Ok xs /\ (xs = true <-> xref_object current i)).
    { destruct s0 as [|e0|l0]; [congruence| |].
      - eexists. split; [reflexivity|]. destruct (n_xsn e0) as [x|] eqn:Ex.
        + rewrite Z.eqb_eq. split; [intros ->; exists e0; auto|]. intros (e' & C' & X). pose proof (cell_fun _ _ _ _ C0 C') as Y. injection Y as <-. congruence.
        + split; [discriminate|]. intros (e' & C' & X). pose proof (cell_fun _ _ _ _ C0 C') as Y. injection Y as <-. congruence.
      - exists false. split; [auto|]. split; [discriminate|]. intros (e' & C' & X). pose proof (cell_fun _ _ _ _ C0 C') as Y. discriminate Y. }
    destruct XR as (xs & -> & XR). cbn [bind]. destruct xs.
    { exists []. split; [auto|]. split; [|cbn; lia]. intro x. cbn. split; [tauto|]. intros (e' & a & _ & NX & _). now destruct NX; apply XR. }
    assert (NX : ~ xref_object current i) by (intro X; apply XR in X; discriminate).
    destruct (Z.of_nat (length previous) - 1 <? i) eqn:EL.
    { exists [((n_gen e, i), Add)]. split; [auto|]. split; [|cbn; lia]. intro x.
      rewrite (at_num_out previous i) by lia. cbn [In]. split.
      - intros [<-|[]]. exists e, Add. split; [auto|]. split; [auto|]. split; [congruence|]. split; [now constructor|auto].
      - intros (e' & a & X & _ & _ & T & ->). injection X as <-. left. destruct T as [|X1 X2|X1 X2]; [auto|discriminate X1|congruence]. }
    pose proof (at_num_in previous i ltac:(lia)) as CP. set (p := at_num previous i) in *.
    assert (PP : pyget previous i = Ok p) by (apply pyget_cell; auto; lia). rewrite PP. cbn [bind].
    assert (NL : forall l, p <> SList l) by (apply (TP i p); auto; lia).
    pose proof (slot_eqb_eq p (SDict e) NL) as SE. destruct (slot_eqb p (SDict e)) eqn:EQ.
    { exists []. split; [auto|]. split; [|cbn; lia]. intro x. cbn. split; [tauto|]. intros (e' & a & _ & _ & D & _). apply D. apply SE. auto. }
    assert (NE : p <> SDict e) by (intro X; apply SE in X; discriminate).
    destruct p as [|pe|pl] eqn:Ep; cbn [is_snone].
    + exists [((n_gen e, i), Add)]. split; [auto|]. split; [|cbn; lia]. intro x. cbn [In]. split.
      * intros [<-|[]]. exists e, Add. split; [auto|]. split; [auto|]. split; [congruence|]. split; [now constructor|auto].
      * intros (e' & a & X & _ & _ & T & ->). injection X as <-. left. destruct T as [|X1 X2|X1 X2]; [auto|discriminate X1|congruence].
    + cbn [deleted_in bind]. eexists. split; [reflexivity|]. split; [|cbn; lia]. intro x. cbn [In]. split.
      * intros [<-|[]]. exists e. eexists. split; [auto|]. split; [auto|]. split; [congruence|]. split; [|reflexivity].
        destruct (n_del pe) eqn:D1, (n_del e) eqn:D2; cbn [negb andb].
        -- apply Tg_upd; [congruence|]. cbn. rewrite D1. auto.
        -- apply Tg_upd; [congruence|]. cbn. rewrite D1. auto.
        -- apply Tg_del; cbn; rewrite ?D1, ?D2; auto.
        -- apply Tg_upd; [congruence|]. cbn. rewrite D2. auto.
      * intros (e' & a & X & _ & _ & T & ->). injection X as <-. left. f_equal.
        destruct T as [X1|X1 X2|X1 X2]; [discriminate X1| |]; cbn in *.
        -- destruct (n_del pe), (n_del e); auto; discriminate.
        -- destruct (n_del pe), (n_del e); cbn in *; auto. destruct X2; discriminate.
    + now destruct (NL pl).
  - destruct (TC i (SList l)) with (l := l); auto; lia.
Qed.

Lemma changes_spec_rows current previous l : tidy current -> tidy previous -> (exists s0, cell current 0 s0 /\ s0 <> SNone) ->
  map_res (change_of current previous) (nums current) = Ok l ->
  (forall i a g, In ((g, i), a) (concat l) <-> 0 < i /\ exists e, at_num current i = SDict e /\ g = n_gen e /\ ~ xref_object current i /\
      at_num previous i <> at_num current i /\ tagged (at_num previous i) (at_num current i) a) /\
  NoDup (map chg_num (concat l)).
Proof.
  intros TC TP C0 M. split.
  - destruct (map_res_concat (change_of current previous) (nums current)) as (r & Er & Hr).
    { intros x I. apply in_nums in I. destruct (change_of_spec current previous x TC TP I C0) as (y & E & _). eauto. }
    rewrite M in Er. injection Er as <-. intros i a g. rewrite Hr. split.
    + intros (x & y & I & E & IY). apply in_nums in I. destruct (change_of_spec current previous x TC TP I C0) as (y' & E' & S & _).
      rewrite E in E'. injection E' as <-. apply S in IY. destruct IY as (e & a' & X1 & X2 & X3 & X4 & X5). injection X5 as -> -> ->.
      split; [lia|]. exists e. auto.
    + intros (P & e & X1 & -> & X2 & X3 & X4).
      assert (R : 1 <= i < Z.of_nat (length current)).
      { split; [lia|]. destruct (Z_lt_ge_dec i (Z.of_nat (length current))); [auto|]. rewrite at_num_out in X1 by lia. discriminate. }
      destruct (change_of_spec current previous i TC TP R C0) as (y & E & S & _). exists i, y. split; [now apply in_nums|]. split; [auto|].
      apply S. exists e, a. auto.
  - assert (G : forall n s l, map_res (change_of current previous) (zseq s n) = Ok l -> 1 <= s -> s + Z.of_nat n <= Z.of_nat (length current) \/ n = 0%nat ->
        NoDup (map chg_num (concat l)) /\ Forall (fun k => s <= k) (map chg_num (concat l))).
    { clear l M. induction n as [|n IH]; intros s l M S0 B0; cbn [zseq map_res] in M.
      - injection M as <-. cbn. split; constructor.
      - destruct B0 as [B0|B0]; [|discriminate].
        destruct (change_of_spec current previous s TC TP ltac:(lia) C0) as (y & E & SP & LE). rewrite E in M. cbn [bind] in M.
        destruct (map_res (change_of current previous) (zseq (s + 1) n)) as [t| |] eqn:Et; cbn [bind] in M; try discriminate. injection M as <-.
        destruct (IH (s + 1) t Et) as [N1 F1]; [lia|destruct n; lia|]. cbn [concat]. rewrite map_app.
        assert (K : forall x, In x (map chg_num y) -> x = s).
        { intros x I. apply in_map_iff in I. destruct I as (c & <- & I). apply SP in I. destruct I as (e & a & _ & _ & _ & _ & ->). reflexivity. }
        split.
        + destruct y as [|c [|c' y]]; cbn [map app]; [auto| |cbn in LE; lia]. constructor; [|auto]. intro I.
          rewrite Forall_forall in F1. specialize (F1 _ I). specialize (K (chg_num c) (or_introl eq_refl)). lia.
        + apply Forall_app. split; [apply Forall_forall; intros x I; apply K in I; lia|]. eapply Forall_impl; [|exact F1]. cbn. lia. }
    destruct (length current) as [|n] eqn:En.
    { unfold nums in M. rewrite En in M. cbn in M. injection M as <-. constructor. }
    apply (G n 1 l); [|lia|lia]. unfold nums in M. rewrite En in M. now replace (S n - 1)%nat with n in M by lia.
Qed.
Lemma changes_total_rows current previous : tidy current -> tidy previous -> (exists s0, cell current 0 s0 /\ s0 <> SNone) ->
  exists l, map_res (change_of current previous) (nums current) = Ok l.
Proof.
  intros TC TP C0. destruct (map_res_concat (change_of current previous) (nums current)) as (r & Er & _); [|eauto].
  intros x I. apply in_nums in I. destruct (change_of_spec current previous x TC TP I C0) as (y & E & _). eauto.
Qed.
Lemma changes_rows d rev previous current : pyget (d_index d) rev = Ok current -> pyget (d_index d) (rev - 1) = Ok previous ->
  length (d_index d) <> 1%nat -> tidy current -> tidy previous -> (exists s0, cell current 0 s0 /\ s0 <> SNone) ->
  exists chg, changes_at d rev = Ok chg /\ lists_differences previous current chg.
Proof.
  intros E1 E2 L TC TP C0. unfold changes_at. rewrite E1. cbn [bind].
  replace (Nat.eqb _ 1) with false by (symmetry; now apply Nat.eqb_neq). rewrite E2. cbn [bind].
  destruct (changes_total_rows current previous TC TP C0) as [r Er]. rewrite Er. cbn [bind].
  destruct (changes_spec_rows current previous r TC TP C0 Er) as [S N]. exists (concat r). split; [auto|]. split; auto.
Qed.
Theorem changes_spec d l previous current : d_index d = l ++ [previous; current] -> tidy current -> tidy previous ->
  (exists s0, cell current 0 s0 /\ s0 <> SNone) ->
  exists chg, changes d = Ok chg /\ lists_differences previous current chg.
Proof.
  intros E TC TP C0. unfold changes. apply changes_rows with (previous := previous) (current := current); auto; rewrite E.
  - replace (l ++ [previous; current]) with ((l ++ [previous]) ++ [current]) by now rewrite <- app_assoc. apply pyget_last.
  - unfold pyget, pyidx. rewrite !app_length. cbn [length].
    replace ((0 <=? -1 - 1) && (-1 - 1 <? Z.of_nat (length l + 2))) with false by lia.
    replace ((- Z.of_nat (length l + 2) <=? -1 - 1) && (-1 - 1 <? 0)) with true by lia.
    replace (Z.to_nat (-1 - 1 + Z.of_nat (length l + 2))) with (length l) by lia.
    rewrite nth_error_app2 by lia. now rewrite Nat.sub_diag.
  - rewrite app_length. cbn. lia.
Qed.
Theorem changes_at_spec d rev previous current : 0 < rev -> cell (d_index d) rev current -> cell (d_index d) (rev - 1) previous ->
  tidy current -> tidy previous -> (exists s0, cell current 0 s0 /\ s0 <> SNone) ->
  exists chg, changes_at d rev = Ok chg /\ lists_differences previous current chg.
Proof.
  intros R C1 C2 TC TP C0. apply changes_rows with (previous := previous) (current := current); auto.
  - apply pyget_cell; auto; lia.
  - apply pyget_cell; auto; lia.
  - pose proof (cell_range _ _ _ C1). lia.
Qed.
(* a document with one revision: everything is new *)
Theorem changes_single d current : d_index d = [current] -> tidy current -> (exists s0, cell current 0 s0 /\ s0 <> SNone) ->
  exists chg, changes d = Ok chg /\ NoDup (map chg_num chg) /\
  forall i a g, In ((g, i), a) chg <-> a = Add /\ 0 < i /\ exists e, at_num current i = SDict e /\ g = n_gen e /\ ~ xref_object current i.
Proof.
  intros E TC C0. unfold changes, changes_at. rewrite E. change (pyget [current] (-1)) with (@Ok (list slot) current). cbn [bind length Nat.eqb].
  set (previous := repeat SNone (length current)).
  assert (PN : forall n s, cell previous n s -> s = SNone).
  { intros n s [_ H]. apply nth_error_In in H. now apply repeat_spec in H. }
  assert (PA : forall n, 0 <= n -> at_num previous n = SNone).
  { intros n N. destruct (Z_lt_ge_dec n (Z.of_nat (length previous))); [|apply at_num_out; lia]. apply (PN n), at_num_in. lia. }
  assert (TP : tidy previous) by (intros n s _ C lx X; apply PN in C; congruence).
  destruct (changes_total_rows current previous TC TP C0) as [r Er]. rewrite Er. cbn [bind].
  destruct (changes_spec_rows current previous r TC TP C0 Er) as [S N]. exists (concat r). split; [auto|]. split; [auto|].
  intros i a g. rewrite S. split.
  - intros (P & e & X1 & X2 & X3 & X4 & X5). rewrite PA in X5 by lia. split; [|eauto]. destruct X5 as [|Y|Y]; [auto|discriminate Y|congruence].
  - intros (-> & P & e & X1 & X2 & X3). split; [auto|]. exists e. rewrite PA, X1 by lia. split; [auto|]. split; [auto|]. split; [auto|]. split; [congruence|now constructor].
Qed.

Lemma additions_ok d l d2 : additions d l d2 -> forall row, open_row d row -> length (d_cache d) = length row ->
  (exists p, provider d p) -> coherent d -> Forall (fun x => fst x <> PNone) l ->
  map snd l = map (fun k => (0, Z.of_nat (length row) + Z.of_nat k)) (seq 0 (length l)) /\
  Forall (fun x => value d2 (snd (snd x)) = Ok (fst x)) l /\
  (forall k, 0 <= k < Z.of_nat (length row) -> value d2 k = value d k) /\
  removelast (d_index d2) = removelast (d_index d) /\ d_data d2 = d_data d /\ coherent d2.
Proof.
  induction 1 as [d|d v r d1 l d2 A AS IH]; intros row O LC P C F.
  { cbn. repeat split; auto. }
  inversion F as [|x y F1 F2]; subst. cbn [fst] in F1.
  destruct (add_fresh d v d1 r A) as (lx & row' & El & -> & (e & E1) & ED & C1 & V & OV & LC1); auto.
  { intros row' O'. rewrite (open_fun d row' row); auto. }
  assert (row' = row) by (apply (open_fun d); auto; exists lx; auto). subst row'. cbn [snd] in *.
  assert (O1 : open_row d1 (row ++ [SDict e])) by (exists lx; auto).
  destruct (IH (row ++ [SDict e]) O1) as (I1 & I2 & I3 & I4 & I5 & I6); auto.
  { rewrite LC1, !app_length. reflexivity. }
  { destruct P as [p P]. exists p. destruct P as (a & b & P1 & P2). exists a, b. rewrite ED. auto. }
  rewrite app_length in I1, I3. cbn [length] in I1, I3. split; [|split; [|split; [|split; [|split]]]].
  - cbn [map length seq snd]. f_equal; [f_equal; lia|]. rewrite I1. rewrite <- seq_shift, map_map. apply map_ext. intro. f_equal. lia.
  - constructor; [|exact I2]. cbn [fst snd]. rewrite I3 by lia. exact V.
  - intros k K. rewrite I3 by lia. apply OV. lia.
  - rewrite I4, E1, El. now rewrite !removelast_last.
  - congruence.
  - exact I6.
Qed.

(* a check of coherence for documents in which nothing has been read *)
Definition fresh_stream (row : list slot) (p : prov) (cache : list obj) (c : Z) : bool :=
  match pyget row c with
  | Ok (SDict ce) =>
      (0 <? c) && negb (n_del ce) && match n_env ce with None => true | _ => false end &&
      match parse_at p ce with
      | Ok (PStream sd st en) =>
          match parse_object_stream sd st c with
          | Ok l => match pyget cache c with Ok PNone => true | _ => false end &&
                    forallb (fun e => match e_num e with
                                      | PInt n => (0 <? n) &&
                                          match pyget row n, pyget cache n with
                                          | Ok (SDict ne), Ok PNone => negb (n_del ne) && oz_eqb (n_env ne) (Some c)
                                          | _, _ => false
                                          end
                                      | _ => false
                                      end) l
          | _ => false
          end
      | _ => false
      end
  | _ => false
  end.
Definition coherentb (d : doc) : bool :=
  match last_row d, fdata_at d (-1) with
  | Ok row, Ok p => forallb (fun s => match s with
                                      | SDict e => n_del e || match n_env e with Some c => fresh_stream row p (d_cache d) c | None => true end
                                      | _ => true
                                      end) row
  | _, _ => true
  end.
Lemma coherentb_ok d : coherentb d = true -> coherent d.
Proof.
  unfold coherentb. intros H row p O P n e c Ce De Ee.
  rewrite (open_last d row O), (provider_fdata d p P) in H. rewrite forallb_forall in H.
  assert (IN : In (SDict e) row) by (destruct Ce as [_ Ce]; eapply nth_error_In; eauto). specialize (H _ IN). cbn beta iota in H.
  rewrite De, Ee in H. cbn [orb] in H. clear IN Ce De Ee n e. unfold fresh_stream in H.
  destruct (pyget row c) as [[|ce|?]| |] eqn:Ec; try discriminate. rewrite !andb_true_iff in H. destruct H as [[[C0 D0] E0] H].
  destruct (n_env ce) eqn:En; [discriminate|]. destruct (parse_at p ce) as [[| | | | | | | | |sd st en]| |] eqn:Ep; try discriminate.
  destruct (parse_object_stream sd st c) as [l| |] eqn:El; try discriminate. rewrite andb_true_iff in H. destruct H as [HC HF].
  destruct (pyget (d_cache d) c) as [[]| |] eqn:Ecc; try discriminate.
  exists ce, sd, st, en, l. split; [lia|]. split; [apply pyget_cell; auto; lia|]. split; [now destruct (n_del ce)|].
  split; [auto|]. split; [auto|]. split; [auto|]. split; [left; apply pyget_cell; auto; lia|].
  apply Forall_forall. intros x I. rewrite forallb_forall in HF. specialize (HF x I). destruct (e_num x) eqn:Ex; try discriminate.
  rewrite andb_true_iff in HF. destruct HF as [N0 HF]. destruct (pyget row z) as [[|ne|?]| |] eqn:Ez; try discriminate.
  destruct (pyget (d_cache d) z) as [[]| |] eqn:Ezc; try discriminate. rewrite andb_true_iff in HF. destruct HF as [D1 E1].
  exists z, ne, PNone. split; [auto|]. split; [lia|]. split; [apply pyget_cell; auto; lia|]. split; [now destruct (n_del ne)|].
  split; [now apply oz_eqb_eq|]. split; [apply pyget_cell; auto; lia|]. now left.
Qed.
End WithZlib.
