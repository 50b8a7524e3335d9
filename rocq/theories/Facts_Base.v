(* Lemmas on the Python primitives of PyBase.v *)
From Coq Require Import ZifyBool ZifyNat.
From Verif Require Import PyBase.

Ltac Zify.zify_post_hook ::= Z.div_mod_to_equations.

Lemma beqb_refl a : beqb a a = true.
Proof. induction a; cbn; auto. rewrite Z.eqb_refl. auto. Qed.

Lemma beqb_eq a b : beqb a b = true <-> a = b.
Proof.
  split; [|intros ->; apply beqb_refl].
  revert b; induction a as [|x a IH]; destruct b; cbn; try discriminate; auto.
  intros H. apply andb_prop in H as [H1 H2]. apply Z.eqb_eq in H1. f_equal; auto.
Qed.

Lemma beqb_neq a b : beqb a b = false <-> a <> b.
Proof.
  destruct (beqb a b) eqn:E; split; try discriminate; auto.
  - intros N. exfalso. apply N. apply beqb_eq; auto.
  - intros _ ->. rewrite beqb_refl in E. discriminate.
Qed.

Lemma beqb_sym a b : beqb a b = beqb b a.
Proof.
  destruct (beqb a b) eqn:E.
  - apply beqb_eq in E. subst. symmetry; apply beqb_refl.
  - apply beqb_neq in E. symmetry. apply beqb_neq. congruence.
Qed.

Lemma inb_In c l : inb c l = true <-> In c l.
Proof.
  unfold inb. rewrite existsb_exists. split.
  - intros (x & H & E). apply Z.eqb_eq in E. congruence.
  - intros H. exists c. split; auto. apply Z.eqb_refl.
Qed.

Lemma inb_not_In c l : inb c l = false <-> ~ In c l.
Proof.
  rewrite <- inb_In. destruct (inb c l); split; congruence.
Qed.

Lemma starts_app p r : starts p (p ++ r) = true.
Proof. unfold starts. rewrite firstn_app, Nat.sub_diag, firstn_all, firstn_O, app_nil_r. apply beqb_refl. Qed.

Lemma starts_iff p r : starts p r = true <-> exists r', r = p ++ r'.
Proof.
  split.
  - unfold starts. intros H. apply beqb_eq in H. exists (skipn (length p) r).
    rewrite <- H at 1. symmetry. apply firstn_skipn.
  - intros [r' ->]. apply starts_app.
Qed.

Lemma starts_app_mono p r x : starts p r = true -> starts p (r ++ x) = true.
Proof. rewrite !starts_iff. intros [r' ->]. exists (r' ++ x). rewrite app_assoc; auto. Qed.

Lemma starts_cons_neq a p c r : a <> c -> starts (a :: p) (c :: r) = false.
Proof.
  intros N. unfold starts. cbn. destruct (c =? a) eqn:E; auto. apply Z.eqb_eq in E. congruence.
Qed.

(* when a pattern appears only thanks to appended bytes, the text is a proper prefix of it *)
Lemma starts_app_new p r x :
  starts p r = false -> starts p (r ++ x) = true ->
  r = firstn (length r) p /\ (length r < length p)%nat.
Proof.
  intros H1 H2. apply starts_iff in H2 as [y H2].
  assert (L : (length r < length p)%nat).
  { destruct (Nat.ltb_spec (length r) (length p)); auto.
    exfalso. assert (starts p r = true); [|congruence].
    apply starts_iff. exists (skipn (length p) r).
    assert (E : firstn (length p) (r ++ x) = firstn (length p) r).
    { rewrite firstn_app. replace (length p - length r)%nat with 0%nat by lia.
      rewrite firstn_O, app_nil_r. auto. }
    rewrite H2, firstn_app, Nat.sub_diag, firstn_all, firstn_O, app_nil_r in E.
    rewrite E at 1. symmetry. apply firstn_skipn. }
  split; auto.
  assert (E : firstn (length r) (r ++ x) = firstn (length r) p).
  { rewrite H2, firstn_app. replace (length r - length p)%nat with 0%nat by lia.
    rewrite firstn_O, app_nil_r. auto. }
  rewrite firstn_app, Nat.sub_diag, firstn_all, firstn_O, app_nil_r in E. auto.
Qed.

Lemma skipn_app_len {A} (p r : list A) : skipn (length p) (p ++ r) = r.
Proof. rewrite skipn_app, skipn_all, Nat.sub_diag. auto. Qed.

Lemma skipn_app_plus {A} (p r : list A) i : skipn (length p + i) (p ++ r) = skipn i r.
Proof.
  rewrite skipn_app. rewrite skipn_all2 by lia.
  cbn. f_equal. lia.
Qed.

Lemma firstn_app_len {A} (p r : list A) : firstn (length p) (p ++ r) = p.
Proof. rewrite firstn_app, Nat.sub_diag, firstn_all, firstn_O, app_nil_r. auto. Qed.

Lemma skipn_skipn {A} x y (l : list A) : skipn x (skipn y l) = skipn (x + y) l.
Proof.
  revert l; induction y; intros l. { rewrite Nat.add_0_r. auto. }
  destruct l; [rewrite !skipn_nil; auto|]. rewrite Nat.add_succ_r. cbn [skipn]. apply IHy.
Qed.

Lemma sub_app p v r : sub (p ++ v ++ r) (length p) (length p + length v) = v.
Proof.
  unfold sub. rewrite skipn_app_len.
  replace (length p + length v - length p)%nat with (length v) by lia.
  apply firstn_app_len.
Qed.

Lemma sub_skipn t i h j : (i <= h)%nat -> sub (skipn i t) (h - i) (j - i) = sub t h j.
Proof.
  intros H. unfold sub. rewrite skipn_skipn.
  replace (h - i + i)%nat with h by lia.
  destruct (Nat.leb_spec h j).
  - f_equal. lia.
  - replace (j - i - (h - i))%nat with 0%nat by lia. replace (j - h)%nat with 0%nat by lia. auto.
Qed.

Lemma sub_length t i j : (i <= j <= length t)%nat -> length (sub t i j) = (j - i)%nat.
Proof. intros. unfold sub. rewrite firstn_length, skipn_length. lia. Qed.

Lemma sub_length_le t i j : (length (sub t i j) <= j - i)%nat.
Proof. unfold sub. rewrite firstn_length. lia. Qed.

Lemma sub_length_le2 t i j : (length (sub t i j) <= length t - i)%nat.
Proof. unfold sub. rewrite firstn_length, skipn_length. lia. Qed.

(* ---------- decimal digits ---------- *)
Definition isdig (c : Z) : Prop := 48 <= c <= 57.

Lemma digs_fold_app l c a :
  fold_left (fun a c => 10 * a + (c - 48)) (l ++ [c]) a
  = 10 * fold_left (fun a c => 10 * a + (c - 48)) l a + (c - 48).
Proof. rewrite fold_left_app. reflexivity. Qed.

Lemma val_digits_app l c : val_digits (l ++ [c]) = 10 * val_digits l + (c - 48).
Proof. apply digs_fold_app. Qed.

Lemma digs_dig fuel n : 0 <= n -> Forall isdig (digs fuel n).
Proof.
  revert n; induction fuel; intros n H; cbn [digs].
  - constructor; auto. unfold isdig, digit. lia.
  - destruct (n <? 10) eqn:E.
    + constructor; auto. unfold isdig, digit. lia.
    + apply Forall_app; split; [apply IHfuel; lia|]. constructor; auto. unfold isdig, digit. lia.
Qed.

Lemma digs_val fuel n : 0 <= n < 10 ^ (Z.of_nat (S fuel)) -> val_digits (digs fuel n) = n.
Proof.
  revert n; induction fuel; intros n H.
  - cbn in H. cbn [digs]. unfold val_digits, digit. cbn [fold_left]. lia.
  - cbn [digs]. destruct (n <? 10) eqn:E.
    + unfold val_digits, digit. cbn [fold_left]. lia.
    + rewrite val_digits_app, IHfuel.
      * unfold digit. lia.
      * rewrite (Nat2Z.inj_succ (S fuel)), Z.pow_succ_r in H by lia. lia.
Qed.

Lemma log2_pow10 n : 0 <= n -> n < 10 ^ (Z.of_nat (S (Z.to_nat (Z.log2 n)))).
Proof.
  intros H. rewrite Nat2Z.inj_succ, Z2Nat.id by apply Z.log2_nonneg.
  destruct (Z.eq_dec n 0) as [->|N].
  - cbn. lia.
  - apply Z.lt_le_trans with (2 ^ Z.succ (Z.log2 n)).
    + apply Z.log2_spec. lia.
    + apply Z.pow_le_mono_l. lia.
Qed.

Lemma dec_nat_val n : 0 <= n -> val_digits (dec_nat n) = n.
Proof. intros H. unfold dec_nat. apply digs_val. split; auto. apply log2_pow10; auto. Qed.

Lemma dec_nat_dig n : 0 <= n -> Forall isdig (dec_nat n).
Proof. apply digs_dig. Qed.

Lemma digs_nonnil fuel n : digs fuel n <> [].
Proof. destruct fuel; cbn; [discriminate|]. destruct (n <? 10); [discriminate|]. intros E. apply app_eq_nil in E as [_ E]. discriminate. Qed.

Lemma dec_nat_nonnil n : dec_nat n <> [].
Proof. apply digs_nonnil. Qed.

(* the first digit is not 0, unless n = 0 *)
Lemma digs_head fuel n : 0 < n < 10 ^ (Z.of_nat (S fuel)) -> exists d r, digs fuel n = d :: r /\ 49 <= d <= 57.
Proof.
  revert n; induction fuel; intros n H.
  - cbn in H. cbn [digs]. exists (digit (n mod 10)), []. split; auto. unfold digit. lia.
  - cbn [digs]. destruct (n <? 10) eqn:E.
    + exists (digit n), []. split; auto. unfold digit. lia.
    + destruct (IHfuel (n / 10)) as (d & r & E1 & Hd).
      { rewrite (Nat2Z.inj_succ (S fuel)), Z.pow_succ_r in H by lia. lia. }
      rewrite E1. exists d, (r ++ [digit (n mod 10)]). split; auto.
Qed.

Lemma dec_nat_head n : 0 < n -> exists d r, dec_nat n = d :: r /\ 49 <= d <= 57.
Proof. intros H. apply digs_head. split; auto. apply log2_pow10; lia. Qed.

Lemma dval_dig c : isdig c -> dval c = c - 48.
Proof. unfold isdig, dval. intros H. replace ((48 <=? c) && (c <=? 57)) with true by lia. auto. Qed.

Lemma int_digits_digs acc s : Forall isdig s ->
  int_digits 10 acc s = Some (fold_left (fun a c => 10 * a + (c - 48)) s acc).
Proof.
  intros H. revert acc; induction H; intros acc; auto. cbn.
  rewrite (dval_dig x) by auto. red in H.
  replace (x - 48 <? 10) with true by lia. apply IHForall.
Qed.

Lemma lstrip_id set s : (match s with [] => True | c :: _ => ~ In c set end) -> lstrip set s = s.
Proof. destruct s; auto. cbn. intros H. apply inb_not_In in H. rewrite H. auto. Qed.

Lemma strip_id set s : Forall (fun c => ~ In c set) s -> strip set s = s.
Proof.
  intros H. unfold strip. rewrite (lstrip_id set s).
  - rewrite lstrip_id; [apply rev_involutive|].
    apply Forall_rev in H. destruct H; auto.
  - destruct H; auto.
Qed.

Lemma isdig_not_ws c : isdig c -> ~ In c WS.
Proof. unfold isdig, WS. cbn. lia. Qed.

Lemma dec_nows n : Forall (fun c => ~ In c WS) (dec n).
Proof.
  unfold dec. destruct (n <? 0) eqn:E.
  - constructor. { cbn. lia. }
    eapply Forall_impl; [apply isdig_not_ws|]. apply dec_nat_dig. lia.
  - eapply Forall_impl; [apply isdig_not_ws|]. apply dec_nat_dig. lia.
Qed.

Lemma py_int_digs s : Forall isdig s -> s <> [] -> py_int 10 s = Some (val_digits s).
Proof.
  intros H N. unfold py_int. rewrite strip_id.
  2:{ eapply Forall_impl; [apply isdig_not_ws|auto]. }
  destruct s as [|c r]; [congruence|]. inversion H; subst.
  unfold split_sign. red in H2.
  replace (c =? 45) with false by lia. replace (c =? 43) with false by lia.
  rewrite dval_dig by auto. replace (c - 48 <? 10) with true by lia.
  rewrite int_digits_digs by auto. cbn [option_map]. f_equal. unfold val_digits. cbn [fold_left].
  apply Z.mul_1_l.
Qed.

Theorem py_int_dec n : py_int 10 (dec n) = Some n.
Proof.
  destruct (Z.ltb_spec n 0).
  - unfold py_int. rewrite strip_id by apply dec_nows.
    unfold dec. replace (n <? 0) with true by lia. cbn [split_sign]. rewrite Z.eqb_refl.
    destruct (dec_nat_head (-n)) as (d & r & E & Hd); [lia|]. rewrite E.
    pose proof (dec_nat_dig (-n)) as D. rewrite E in D. specialize (D ltac:(lia)).
    inversion D; subst. rewrite dval_dig by auto. replace (d - 48 <? 10) with true by lia.
    rewrite int_digits_digs by auto. cbn [option_map]. f_equal.
    pose proof (dec_nat_val (-n) ltac:(lia)) as V. rewrite E in V.
    unfold val_digits in V. cbn [fold_left] in V.
    change (10 * 0) with 0 in V. rewrite Z.add_0_l in V. rewrite V. lia.
  - unfold dec. replace (n <? 0) with false by lia.
    rewrite py_int_digs; auto using dec_nat_nonnil, dec_nat_dig.
    f_equal. apply dec_nat_val; auto.
Qed.

Lemma dec_inj a b : dec a = dec b -> a = b.
Proof. intros H. pose proof (py_int_dec a). pose proof (py_int_dec b). congruence. Qed.

Lemma val_digits_app2 a b : val_digits (a ++ b) = val_digits a * 10 ^ (Z.of_nat (length b)) + val_digits b.
Proof.
  revert a; induction b as [|c b IH]; intros a.
  - rewrite app_nil_r. cbn. lia.
  - replace (a ++ c :: b) with ((a ++ [c]) ++ b) by (rewrite <- app_assoc; auto).
    rewrite IH, val_digits_app.
    replace (val_digits (c :: b)) with (val_digits ([c] ++ b)) by auto. rewrite IH.
    cbn [length]. rewrite Nat2Z.inj_succ, Z.pow_succ_r by lia.
    replace (val_digits [c]) with (c - 48) by (unfold val_digits; cbn; lia). ring.
Qed.

Lemma val_digits_zeros n : val_digits (repeat 48 n) = 0.
Proof. induction n; auto. Qed.

Lemma val_digits_nonneg s : Forall isdig s -> 0 <= val_digits s.
Proof.
  intros H. rewrite <- (rev_involutive s). apply Forall_rev in H. induction H; [cbn; lia|].
  cbn [rev]. rewrite val_digits_app. red in H. lia.
Qed.

Lemma val_digits_lt s : Forall isdig s -> val_digits s < 10 ^ Z.of_nat (length s).
Proof.
  intros H. rewrite <- (rev_involutive s), rev_length. apply Forall_rev in H. induction H; [cbn; lia|].
  cbn [rev]. rewrite val_digits_app. cbn [length]. rewrite Nat2Z.inj_succ, Z.pow_succ_r by lia.
  red in H. lia.
Qed.

Lemma take_digits_app a r :
  Forall isdig a -> (match r with [] => True | c :: _ => ~ isdig c end) -> take_digits (a ++ r) = (a, r).
Proof.
  intros H N. induction H; cbn.
  - destruct r; auto. cbn. red in N. unfold isdig in N.
    replace ((48 <=? z) && (z <=? 57)) with false by lia. auto.
  - red in H. replace ((48 <=? x) && (x <=? 57)) with true by lia. rewrite IHForall. auto.
Qed.

Lemma norm_dec_pow fuel m k e : m <> 0 -> m mod 10 <> 0 -> (k < fuel)%nat ->
  norm_dec fuel (m * 10 ^ Z.of_nat k) e = (m, e + Z.of_nat k).
Proof.
  revert k e; induction fuel; intros k e M N L; [lia|].
  cbn [norm_dec].
  assert (P : 0 < 10 ^ Z.of_nat k) by (apply Z.pow_pos_nonneg; lia).
  replace (m * 10 ^ Z.of_nat k =? 0) with false by nia.
  destruct k as [|k].
  - cbn. rewrite Z.mul_1_r. replace (m mod 10 =? 0) with false by lia. f_equal; lia.
  - rewrite Nat2Z.inj_succ, Z.pow_succ_r by lia.
    assert (E : m * (10 * 10 ^ Z.of_nat k) = (m * 10 ^ Z.of_nat k) * 10) by ring.
    rewrite E, Z.mod_mul, Z.div_mul by lia. cbn [Z.eqb].
    rewrite IHfuel by (auto; lia). f_equal. lia.
Qed.

Lemma mk_dec_pow m k e : m <> 0 -> m mod 10 <> 0 ->
  mk_dec (m * 10 ^ Z.of_nat k) e = (m, e + Z.of_nat k).
Proof.
  intros M N. unfold mk_dec. apply norm_dec_pow; auto.
  assert (P : 0 < 10 ^ Z.of_nat k) by (apply Z.pow_pos_nonneg; lia).
  assert (Z.of_nat k <= Z.log2 (Z.abs (m * 10 ^ Z.of_nat k))); [|lia].
  apply Z.log2_le_pow2; [lia|].
  apply Z.le_trans with (10 ^ Z.of_nat k); [apply Z.pow_le_mono_l; lia|]. nia.
Qed.

(* ---------- float(str(x)) = x ---------- *)
(* decimals in normal form *)
Definition norm_real (m e : Z) : Prop := (m = 0 /\ e = 0) \/ (m <> 0 /\ m mod 10 <> 0).

(* the digits str(x) shows *)
Definition ndigits (m : Z) : Z := Z.of_nat (length (dec_nat (Z.abs m))).

(* str(x) contains a '.' : the PDF number syntax needs one to read a real *)
Definition dotted_real (m e : Z) : Prop :=
  norm_real m e /\
  ((m = 0) \/ (-4 < ndigits m + e <= 16) \/ 1 < ndigits m).

Lemma split_sign_dig c r : isdig c -> split_sign (c :: r) = (1, c :: r).
Proof. unfold isdig, split_sign. intros. replace (c =? 45) with false by lia. replace (c =? 43) with false by lia. auto. Qed.

Definition sgn_bytes (m : Z) : bytes := if m <? 0 then [45] else [].

Lemma py_float_core m ip fp ex e1 :
  Forall isdig ip -> Forall isdig fp -> ip <> [] ->
  Forall (fun c => ~ In c WS) ex ->
  (ex = [] /\ e1 = 0 \/
   exists sg ed, ex = 101 :: (if sg <? 0 then 45 else 43) :: ed /\ (sg = 1 \/ sg = -1) /\ Forall isdig ed /\ ed <> [] /\
              e1 = sg * val_digits ed) ->
  py_float (sgn_bytes m ++ ip ++ 46 :: fp ++ ex)
  = Some (mk_dec ((if m <? 0 then -1 else 1) * val_digits (ip ++ fp)) (- Z.of_nat (length fp) + e1)).
Proof.
  intros Hi Hf Ni He C. unfold py_float.
  rewrite strip_id.
  2:{ apply Forall_app; split. { unfold sgn_bytes; destruct (m <? 0); auto. constructor; auto. cbn; lia. }
      apply Forall_app; split. { eapply Forall_impl; [apply isdig_not_ws|auto]. }
      constructor. { cbn; lia. } apply Forall_app; split; auto.
      eapply Forall_impl; [apply isdig_not_ws|auto]. }
  assert (S : split_sign (sgn_bytes m ++ ip ++ 46 :: fp ++ ex) = (if m <? 0 then -1 else 1, ip ++ 46 :: fp ++ ex)).
  { unfold sgn_bytes. destruct (m <? 0); cbn [app]; auto.
    destruct ip as [|c ip]; [congruence|]. inversion Hi; subst. apply split_sign_dig; auto. }
  rewrite S. rewrite take_digits_app; auto. 2:{ unfold isdig; lia. }
  rewrite Z.eqb_refl.
  assert (T : take_digits (fp ++ ex) = (fp, ex)).
  { apply take_digits_app; auto. destruct C as [[-> _]|(sg & ed & -> & _)]; auto. unfold isdig; lia. }
  rewrite T. destruct (ip ++ fp) eqn:E.
  { apply app_eq_nil in E as [? _]; congruence. }
  rewrite <- E.
  destruct C as [[-> ->]|(sg & ed & -> & Hs & Hd & Nd & ->)].
  - rewrite Z.add_0_r. auto.
  - cbn [Z.eqb orb Pos.eqb].
    assert (S2 : split_sign ((if sg <? 0 then 45 else 43) :: ed) = (sg, ed)).
    { destruct Hs; subst; cbn; auto. }
    rewrite S2. pose proof (take_digits_app ed [] Hd I) as T2. rewrite app_nil_r in T2. rewrite T2.
    destruct ed; [congruence|]. auto.
Qed.

Lemma dec_nat_len n : 0 < n -> 10 ^ (Z.of_nat (length (dec_nat n)) - 1) <= n.
Proof.
  intros H. destruct (dec_nat_head n H) as (d & r & E & Hd). rewrite E.
  pose proof (dec_nat_val n ltac:(lia)) as V. pose proof (dec_nat_dig n ltac:(lia)) as D.
  rewrite E in V, D. inversion D; subst. change (d :: r) with ([d] ++ r) in *.
  rewrite val_digits_app2. pose proof (val_digits_nonneg r H3).
  replace (Z.of_nat (length ([d] ++ r)) - 1) with (Z.of_nat (length r)) by (cbn [length app]; lia).
  replace (val_digits [d]) with (d - 48) by (unfold val_digits; cbn; lia).
  assert (0 < 10 ^ Z.of_nat (length r)) by (apply Z.pow_pos_nonneg; lia). nia.
Qed.

Lemma pad0_digits n : 0 <= n -> Forall isdig (pad0 2 n) /\ pad0 2 n <> [] /\ val_digits (pad0 2 n) = n.
Proof.
  intros H. unfold pad0. replace (n <? 0) with false by lia. cbn [app length]. rewrite Nat.add_0_l.
  replace (Z.abs n) with n by lia.
  repeat split.
  - apply Forall_app; split. { apply Forall_forall. intros x I. apply repeat_spec in I. subst. unfold isdig; lia. }
    apply dec_nat_dig; auto.
  - intros E. apply app_eq_nil in E as [_ E]. eapply dec_nat_nonnil; eauto.
  - rewrite val_digits_app2, val_digits_zeros, dec_nat_val; auto; lia.
Qed.

Lemma firstn_skipn_dig k s : Forall isdig s -> Forall isdig (firstn k s) /\ Forall isdig (skipn k s).
Proof. intros H. rewrite <- (firstn_skipn k s) in H. apply Forall_app in H. auto. Qed.

(* the shape of str(x) when it has a '.' *)
Lemma float_repr_shape m e : dotted_real m e ->
  exists ip fp ex e1,
    float_repr m e = sgn_bytes m ++ ip ++ 46 :: fp ++ ex /\
    Forall isdig ip /\ Forall isdig fp /\ ip <> [] /\ Forall (fun c => ~ In c WS) ex /\
    (ex = [] /\ e1 = 0 \/
     exists sg ed, ex = 101 :: (if sg <? 0 then 45 else 43) :: ed /\ (sg = 1 \/ sg = -1) /\ Forall isdig ed /\ ed <> [] /\
              e1 = sg * val_digits ed) /\
    mk_dec ((if m <? 0 then -1 else 1) * val_digits (ip ++ fp)) (- Z.of_nat (length fp) + e1) = (m, e).
Proof.
  intros [[[-> ->]|[M N]] D].
  - exists [48], [48], [], 0. cbn. repeat split; auto; try discriminate; repeat constructor; lia.
  - destruct D as [D|D]; [lia|].
    unfold float_repr. replace (m =? 0) with false by lia. fold (sgn_bytes m). fold (ndigits m).
    pose proof (dec_nat_dig (Z.abs m) ltac:(lia)) as DD.
    pose proof (dec_nat_val (Z.abs m) ltac:(lia)) as DV.
    set (ds := dec_nat (Z.abs m)) in *.
    assert (Sg : (if m <? 0 then -1 else 1) * Z.abs m = m) by (destruct (m <? 0) eqn:?; lia).
    assert (NL : ndigits m = Z.of_nat (length ds)) by reflexivity.
    assert (NN : ds <> []) by apply dec_nat_nonnil.
    assert (LP : (0 < length ds)%nat) by (destruct ds; [congruence|cbn; lia]).
    assert (Mk : forall k e', mk_dec (m * 10 ^ Z.of_nat k) e' = (m, e' + Z.of_nat k)) by (intros; apply mk_dec_pow; auto).
    destruct ((-4 <? ndigits m + e) && (ndigits m + e <=? 16)) eqn:C.
    + destruct (ndigits m + e <=? 0) eqn:C1; [|destruct (ndigits m <=? ndigits m + e) eqn:C2].
      * exists [48], (repeat 48 (Z.to_nat (- (ndigits m + e))) ++ ds), [], 0.
        split; [rewrite app_nil_r; auto|]. split; [repeat constructor; lia|].
        split. { apply Forall_app; split; auto. apply Forall_forall. intros x I. apply repeat_spec in I. subst; unfold isdig; lia. }
        split; [discriminate|]. split; [constructor|]. split; [auto|].
        rewrite !val_digits_app2, val_digits_zeros, DV.
        replace (val_digits [48]) with 0 by reflexivity.
        rewrite !Z.mul_0_l, !Z.add_0_l, Sg.
        specialize (Mk 0%nat). cbn [Z.of_nat Z.pow] in Mk. rewrite Z.mul_1_r in Mk. rewrite Mk.
        rewrite app_length, repeat_length. f_equal. lia.
      * exists (ds ++ repeat 48 (Z.to_nat (ndigits m + e - ndigits m))), [48], [], 0.
        split. { rewrite <- !app_assoc. auto. }
        split. { apply Forall_app; split; auto. apply Forall_forall. intros x I. apply repeat_spec in I. subst; unfold isdig; lia. }
        split; [repeat constructor; lia|].
        split. { intros E. apply app_eq_nil in E as [E _]. congruence. }
        split; [constructor|]. split; [auto|].
        rewrite !val_digits_app2, val_digits_zeros, DV.
        replace (val_digits [48]) with 0 by reflexivity. rewrite !Z.add_0_r, repeat_length.
        cbn [length]. 
        replace ((if m <? 0 then -1 else 1) *
   (Z.abs m * 10 ^ Z.of_nat (Z.to_nat (ndigits m + e - ndigits m)) * 10 ^ Z.of_nat 1))
          with (((if m <? 0 then -1 else 1) * Z.abs m) * (10 ^ Z.of_nat (Z.to_nat (ndigits m + e - ndigits m)) * 10 ^ Z.of_nat 1)) by ring.
        rewrite Sg. rewrite <- Z.pow_add_r, <- Nat2Z.inj_add by lia. rewrite Mk. f_equal. lia.
      * set (k := Z.to_nat (ndigits m + e)).
        destruct (firstn_skipn_dig k ds DD).
        exists (firstn k ds), (skipn k ds), [], 0.
        split. { rewrite app_nil_r. auto. }
        split; auto. split; auto.
        split. { intros E. apply (f_equal (@length Z)) in E. rewrite firstn_length in E. cbn [length] in E. lia. }
        split; [constructor|]. split; [auto|].
        rewrite firstn_skipn, DV, Sg. specialize (Mk 0%nat). cbn [Z.of_nat Z.pow] in Mk. rewrite Z.mul_1_r in Mk. rewrite Mk.
        rewrite skipn_length. f_equal. lia.
    + assert (1 < ndigits m) by lia. replace (ndigits m =? 1) with false by lia.
      set (x := ndigits m + e - 1).
      destruct (pad0_digits (Z.abs x)) as (P1 & P2 & P3); [lia|].
      destruct (firstn_skipn_dig 1 ds DD).
      exists (firstn 1 ds), (skipn 1 ds), ([101] ++ (if x <? 0 then [45] else [43]) ++ pad0 2 (Z.abs x)), x.
      split; [reflexivity|].
      split; auto. split; auto.
      split. { intros E. apply (f_equal (@length Z)) in E. rewrite firstn_length in E. cbn [length] in E. lia. }
      split. { constructor. { cbn; lia. } apply Forall_app; split. { destruct (x <? 0); repeat constructor; cbn; lia. }
               eapply Forall_impl; [apply isdig_not_ws|auto]. }
      split.
      { right. exists (if x <? 0 then -1 else 1), (pad0 2 (Z.abs x)).
        split. { destruct (x <? 0); auto. } split. { destruct (x <? 0); auto. }
        split; auto. split; auto. rewrite P3. destruct (x <? 0) eqn:?; lia. }
      rewrite firstn_skipn, DV, Sg. specialize (Mk 0%nat). cbn [Z.of_nat Z.pow] in Mk. rewrite Z.mul_1_r in Mk. rewrite Mk.
      rewrite skipn_length. f_equal. unfold x. lia.
Qed.

Theorem py_float_repr m e : dotted_real m e -> py_float (float_repr m e) = Some (m, e).
Proof.
  intros H. destruct (float_repr_shape m e H) as (ip & fp & ex & e1 & E & H1 & H2 & H3 & H4 & H5 & H6).
  rewrite E, (py_float_core m ip fp ex e1) by auto. f_equal. auto.
Qed.
