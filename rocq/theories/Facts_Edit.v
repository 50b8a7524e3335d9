(* Editing documents one object at a time, at the level of values *)
From Coq Require Import String.
From Verif Require Import PyBase Model_Filters Model_Objects Model_Filestruct Model_Text Model_Docstruct Model_Api.
From Verif Require Import Spec_Objects Spec_Filestruct Spec_Docstruct Spec_Pages.
From Verif Require Import Facts_Base Facts_Obj Facts_Revision Facts_Doc Facts_Commit Facts_Write.
From Coq Require Import ZifyBool ZifyNat.

Section WithZlib.
Context {ZL : Zlib}.

(* ---------- reads ---------- *)
Lemma get_value d n g v : value d n = Ok v -> exists d1, get_object d (PRef g n) = Ok (v, d1).
Proof.
  unfold value, get_object. destruct (last_row d) as [row| |]; cbn [bind]; try discriminate. destruct (fdata_at d (-1)) as [p| |]; cbn [bind]; try discriminate.
  destruct (memoize _ _ _ _) as [c| |]; cbn [bind]; try discriminate. destruct (pyget c n) as [w| |]; cbn [bind]; intro H; try discriminate. injection H as ->. eauto.
Qed.
Lemma value_get d n g v d1 : get_object d (PRef g n) = Ok (v, d1) -> value d n = Ok v.
Proof. unfold value, get_object. intro H. rewrite H. reflexivity. Qed.

Record read_only (d d1 : doc) : Prop := {
  ro_index : d_index d1 = d_index d;
  ro_data : d_data d1 = d_data d;
  ro_len : length (d_cache d1) = length (d_cache d);
  ro_coherent : coherent d1;
  ro_values : same_values d d1
}.
Lemma read_only_refl d : coherent d -> read_only d d.
Proof. intro C. constructor; auto. intros n _. reflexivity. Qed.
Lemma read_only_trans a b c : read_only a b -> read_only b c -> read_only a c.
Proof.
  intros [A1 A2 A3 A4 A5] [B1 B2 B3 B4 B5]. constructor; try congruence; try assumption. intros n N. rewrite B5, A5; auto.
Qed.
Lemma get_ro d g n v d1 : coherent d -> 0 <= n -> get_object d (PRef g n) = Ok (v, d1) -> read_only d d1.
Proof.
  intros C N G. destruct (get_object_step d g n v d1 N C G) as (row & p & O & P & E & [L F] & _).
  destruct (reads_stable d [n] d1 C (Rd_cons d n [] g v d1 d1 N G (Rd_nil d1))) as [C1 V].
  constructor; auto; rewrite E; reflexivity.
Qed.
Lemma read_ok d g n v : coherent d -> 0 <= n -> value d n = Ok v -> exists d1, get_object d (PRef g n) = Ok (v, d1) /\ read_only d d1.
Proof. intros C N V. destruct (get_value d n g v V) as [d1 G]. exists d1. split; [auto|]. eapply get_ro; eauto. Qed.
Lemma points_ro d d1 o n v : read_only d d1 -> points_at d o n v -> points_at d1 o n v.
Proof. intros R (g & E & N & V). exists g. split; [auto|]. split; [auto|]. rewrite (ro_values _ _ R); [auto|lia]. Qed.
Lemma points_read d o n v : coherent d -> points_at d o n v -> exists d1, get_object d o = Ok (v, d1) /\ read_only d d1.
Proof. intros C (g & -> & N & V). apply read_ok; auto. lia. Qed.
Lemma catalog_ro d d1 n c : read_only d d1 -> catalog_at d n c -> catalog_at d1 n c.
Proof.
  intros R (t & r & T & Er & P). exists t, r. split; [rewrite (ro_values _ _ R); [auto|lia]|]. split; [auto|]. eapply points_ro; eauto.
Qed.
Lemma catalog_read d n c : coherent d -> catalog_at d n c -> exists g d1, catalog d = Ok (PDict c, PRef g n, d1) /\ read_only d d1.
Proof.
  intros C (t & r & T & Er & P). unfold catalog, trailer. destruct (read_ok d 0 0 _ C ltac:(lia) T) as (d1 & G & R1). rewrite G. cbn [bind item]. rewrite Er. cbn [of_opt bind].
  destruct (points_read d1 r n (PDict c) (ro_coherent _ _ R1) (points_ro _ _ _ _ _ R1 P)) as (d2 & G2 & R2). rewrite G2. cbn [bind].
  destruct P as (g & -> & _). exists g, d2. split; [auto|]. eapply read_only_trans; eauto.
Qed.

(* ---------- editable documents ---------- *)
Lemma editable_coherent d : editable d -> coherent d.
Proof. intros [P _]. now apply plain_coherent. Qed.
Lemma editable_ro d d1 : editable d -> read_only d d1 -> editable d1.
Proof.
  intros (PL & (p & P) & (row & O) & H) [R1 R2 R3 R4 R5]. 
  assert (EO : forall r, open_row d1 r <-> open_row d r) by (intro r; unfold open_row; rewrite R1; tauto).
  split; [|split; [|split]].
  - intros r k e Or. apply EO in Or. now apply PL.
  - exists p. unfold provider in *. now rewrite R2.
  - exists row. now apply EO.
  - intros r Or. apply EO in Or. rewrite R3. auto.
Qed.
Lemma editable_row d : editable d -> exists l row p, d_index d = l ++ [row] /\ provider d p /\ length (d_cache d) = length row /\
  forall n s, 0 < n -> cell row n s -> exists e, s = SDict e /\ n_over e <> None.
Proof. intros (_ & (p & P) & (row & O) & H). destruct (H row O) as [H1 H2]. destruct O as [l El]. exists l, row, p. auto. Qed.
Lemma value_range d n v : 0 <= n -> value d n = Ok v -> forall row, open_row d row -> n < Z.of_nat (length row).
Proof.
  intros N V row O. unfold value, get_object in V. rewrite (open_last _ _ O) in V. cbn [bind] in V. destruct (fdata_at d (-1)); cbn [bind] in V; try discriminate.
  unfold memoize in V. destruct (pyget row n) as [s| |] eqn:E; cbn [bind] in V; try discriminate. apply pyget_cell in E; auto. apply cell_range in E. lia.
Qed.
Record updated (d d1 : doc) (n : Z) (o : obj) : Prop := {
  up_editable : editable d1;
  up_data : d_data d1 = d_data d;
  up_len : forall row, open_row d row -> exists row1, open_row d1 row1 /\ length row1 = length row;
  up_value : value d1 n = Ok o;
  up_other : forall k, 0 <= k -> k <> n -> value d1 k = value d k
}.
Lemma update_spec d n o d1 : editable d -> 0 < n -> update_object d n o = Ok d1 -> updated d d1 n o.
Proof.
  intros ED N U. pose proof ED as (PL & (p & P) & (row & O) & H). pose proof (editable_coherent d ED) as C.
  destruct (update_inv d n o d1 ltac:(lia) U) as (lx & r & old & ov & El & Ce & Eo & RC & E1).
  assert (r = row) by (apply (open_fun d); [exists lx; auto|auto]). subst r.
  set (e1 := with_del _ _) in *. pose proof (cell_range _ _ _ Ce) as RR.
  assert (OP : forall r, open_row d1 r -> r = lset row (Z.to_nat n) (SDict e1)).
  { intros r [l' E']. rewrite E1 in E'. cbn [d_index] in E'. apply app_inj_tail in E'. symmetry. tauto. }
  assert (O1 : open_row d1 (lset row (Z.to_nat n) (SDict e1))) by (exists lx; rewrite E1; reflexivity).
  assert (P1 : provider d1 p) by (rewrite E1; exact P).
  assert (PL1 : plain d1).
  { intros r k e Or Ck. rewrite (OP r Or) in Ck. rewrite cell_lset in Ck by lia. destruct Ck as [[_ X]|[_ Ck]]; [injection X as ->; reflexivity|exact (PL row k e O Ck)]. }
  assert (ED1 : editable d1).
  { split; [auto|]. split; [eauto|]. split; [eauto|]. intros r Or. rewrite (OP r Or), lset_length. destruct (H row O) as [H1 H2]. split; [rewrite E1; cbn [d_cache]; rewrite lset_length; auto|].
    intros k s K Ck. rewrite cell_lset in Ck by lia. destruct Ck as [[_ ->]|[_ Ck]]; [|exact (H2 k s K Ck)]. exists e1. split; [auto|]. discriminate. }
  destruct (update_reads d n o d1 [] d1 N U (ex_intro _ p P) C (plain_coherent _ PL1) (Rd_nil d1)) as [V1 V2].
  constructor; auto.
  - rewrite E1. reflexivity.
  - intros r Or. assert (r = row) by (apply (open_fun d); auto). subst r. exists (lset row (Z.to_nat n) (SDict e1)). split; [auto|]. apply lset_length.
Qed.
Lemma update_total d n o : editable d -> 0 < n -> (forall row, open_row d row -> n < Z.of_nat (length row)) -> exists d1, update_object d n o = Ok d1.
Proof.
  intros (PL & (p & P) & (row & O) & H) N L. specialize (L row O). destruct (H row O) as [H1 H2]. unfold update_object. rewrite (open_last _ _ O). cbn [bind].
  destruct (pyget_range row n ltac:(lia)) as [s C]. destruct (H2 n s N C) as (e & -> & NO). assert (G : pyget row n = Ok (SDict e)) by (apply pyget_cell; auto; lia). rewrite G. cbn [bind as_dict].
  destruct (n_over e); [|congruence]. cbn [of_opt bind]. rewrite pyset_ok by lia. cbn [bind]. destruct O as [l El]. unfold set_last_row. rewrite El, pyset_last. cbn [bind d_cache].
  rewrite pyset_ok by lia. cbn [bind]. eauto.
Qed.
Lemma update_ok d n o v : editable d -> 0 < n -> value d n = Ok v -> exists d1, update_object d n o = Ok d1 /\ updated d d1 n o.
Proof.
  intros ED N V. destruct (update_total d n o ED N) as [d1 U]; [intros row O; eapply value_range; eauto; lia|]. exists d1. split; [auto|]. apply update_spec; auto.
Qed.
Definition editableb (d : doc) : bool :=
  match last_row d, fdata_at d (-1) with
  | Ok row, Ok _ => forallb (fun s => match s with SDict e => match n_env e with None => true | _ => false end | _ => true end) row
      && Nat.eqb (length (d_cache d)) (length row)
      && forallb (fun s => match s with SDict e => match n_over e with Some _ => true | _ => false end | _ => false end) (skipn 1 row)
  | _, _ => false
  end.
Lemma editableb_ok d : editableb d = true -> editable d.
Proof.
  unfold editableb. destruct (last_row d) as [row| |] eqn:Er; try discriminate. destruct (fdata_at d (-1)) as [p| |] eqn:Ef; try discriminate.
  rewrite !andb_true_iff. intros [[F L] F2]. rewrite forallb_forall in F, F2. apply last_open in Er. apply Nat.eqb_eq in L.
  assert (U : forall r, open_row d r -> r = row) by (intros r Or; now apply (open_fun d)).
  split; [|split; [|split]].
  - intros r k e Or [_ C]. rewrite (U r Or) in C. apply nth_error_In in C. apply F in C. destruct (n_env e); [discriminate|reflexivity].
  - exists p. apply fdata_provider. exact Ef.
  - eauto.
  - intros r Or. rewrite (U r Or). split; [auto|]. intros n s N [_ C]. assert (I : In s (skipn 1 row)).
    { destruct row as [|x row]; [destruct (Z.to_nat n); discriminate C|]. cbn [skipn]. replace (Z.to_nat n) with (S (Z.to_nat (n - 1))) in C by lia. cbn [nth_error] in C. eapply nth_error_In; eauto. }
    apply F2 in I. destruct s as [|e|]; try discriminate. exists e. split; [auto|]. destruct (n_over e); [discriminate|discriminate I].
Qed.

(* ---------- slices (C41) ---------- *)
Lemma in_range a b s j : s <> 0 -> In j (py_range a b s) <->
  if 0 <? s then a <= j < b /\ (j - a) mod s = 0 else b < j <= a /\ (a - j) mod (- s) = 0.
Proof.
  intro S0. unfold py_range. rewrite in_map_iff. destruct (0 <? s) eqn:E.
  - split.
    + intros (i & <- & I). apply in_seq in I. assert (H : Z.of_nat i < (b - a + s - 1) / s) by lia.
      assert (s * Z.of_nat i <= b - a - 1) by nia. split; [nia|]. replace (a + s * Z.of_nat i - a) with (Z.of_nat i * s) by lia. apply Z_mod_mult.
    + intros [R M]. exists (Z.to_nat ((j - a) / s)). pose proof (Z.div_mod (j - a) s ltac:(lia)). rewrite M in H.
      assert (0 <= (j - a) / s) by (apply Z.div_pos; lia). split; [rewrite Z2Nat.id by lia; lia|]. apply in_seq. split; [lia|].
      assert ((j - a) / s < (b - a + s - 1) / s); [|lia]. apply Z.lt_le_trans with ((j - a) / s + 1); [lia|]. apply Z.div_le_lower_bound; [lia|]. nia.
  - split.
    + intros (i & <- & I). apply in_seq in I. assert (H : Z.of_nat i < (a - b - s - 1) / - s) by lia.
      assert ((- s) * Z.of_nat i <= a - b - 1) by nia. split; [nia|]. replace (a - (a + s * Z.of_nat i)) with (Z.of_nat i * (- s)) by lia. apply Z_mod_mult.
    + intros [R M]. exists (Z.to_nat ((a - j) / - s)). pose proof (Z.div_mod (a - j) (- s) ltac:(lia)). rewrite M in H.
      assert (0 <= (a - j) / - s) by (apply Z.div_pos; lia). split; [rewrite Z2Nat.id by lia; lia|]. apply in_seq. split; [lia|].
      assert ((a - j) / - s < (a - b - s - 1) / - s); [|lia]. apply Z.lt_le_trans with ((a - j) / - s + 1); [lia|]. apply Z.div_le_lower_bound; [lia|]. nia.
Qed.
Theorem slice_pages n a b s : 0 <= n -> s <> Some 0 -> exists l, key_pages n (KSlice a b s) = Ok l /\ forall j, In j l <-> in_slice n a b s j.
Proof.
  intros N S0. unfold key_pages, slice_indices. set (st := match s with Some x => x | None => 1 end). assert (ST : st <> 0) by (unfold st; destruct s; congruence || lia).
  replace (st =? 0) with false by lia. cbn [bind]. eexists. split; [reflexivity|]. intro j. rewrite in_range by auto. unfold in_slice. fold st. unfold clamp, from_end.
  destruct (0 <? st) eqn:E.
  - replace (st <? 0) with false by lia.
    assert (A : forall lo, (0 <= lo -> lo <= n -> True) -> True) by auto. clear A.
    set (x := match a with Some _ => _ | None => _ end). set (y := match b with Some _ => _ | None => _ end).
    assert (EX : 0 <= x /\ ((match a with Some a => from_end n a <= j | None => True end) -> 0 <= j < n -> x <= j) /\ (x <= j -> j < n -> match a with Some a => from_end n a <= j | None => True end) /\
       (j < n -> x <= j \/ (match a with Some a => from_end n a <= j | None => True end) -> x = match a with Some a => Z.max 0 (from_end n a) | None => 0 end)).
    { unfold x, from_end. destruct a as [a|]; [|lia]. repeat match goal with |- context[if ?c then _ else _] => destruct c eqn:? end; lia. }
    assert (EY : y <= n /\ ((match b with Some b => j < from_end n b | None => True end) -> 0 <= j < n -> j < y) /\ (0 <= j -> j < y -> match b with Some b => j < from_end n b | None => True end)).
    { unfold y, from_end. destruct b as [b|]; [|lia]. repeat match goal with |- context[if ?c then _ else _] => destruct c eqn:? end; lia. }
    unfold from_end in *. destruct EX as (X0 & X1 & X2 & X3). destruct EY as (Y0 & Y1 & Y2). split.
    + intros [R M]. assert (J : 0 <= j < n) by lia. split; [auto|]. split; [apply X2; lia|]. split; [apply Y2; lia|]. rewrite <- X3; [exact M|lia|left; lia].
    + intros (J & A & Bb & M). split; [split; auto|]. rewrite X3; [exact M|lia|right; exact A].
  - replace (st <? 0) with true by lia.
    set (x := match a with Some _ => _ | None => _ end). set (y := match b with Some _ => _ | None => _ end).
    assert (EX : x <= n - 1 /\ ((match a with Some a => j <= from_end n a | None => True end) -> 0 <= j < n -> j <= x) /\ (j <= x -> 0 <= j -> match a with Some a => j <= from_end n a | None => True end) /\
       (0 <= j -> j <= x \/ (0 <= j < n /\ match a with Some a => j <= from_end n a | None => True end) -> x = match a with Some a => Z.min (n - 1) (from_end n a) | None => n - 1 end)).
    { unfold x, from_end. destruct a as [a|]; [|lia]. repeat match goal with |- context[if ?c then _ else _] => destruct c eqn:? end; lia. }
    assert (EY : -1 <= y /\ ((match b with Some b => from_end n b < j | None => True end) -> 0 <= j < n -> y < j) /\ (j < n -> y < j -> match b with Some b => from_end n b < j | None => True end)).
    { unfold y, from_end. destruct b as [b|]; [|lia]. repeat match goal with |- context[if ?c then _ else _] => destruct c eqn:? end; lia. }
    unfold from_end in *. destruct EX as (X0 & X1 & X2 & X3). destruct EY as (Y0 & Y1 & Y2). split.
    + intros [R M]. assert (J : 0 <= j < n) by lia. split; [auto|]. split; [apply X2; lia|]. split; [apply Y2; lia|]. rewrite <- X3; [exact M|lia|left; lia].
    + intros (J & A & Bb & M). split; [split; auto|]. rewrite X3; [exact M|lia|right; auto].
Qed.

(* ---------- a new object ---------- *)
Lemma add_spec d o d1 r : editable d -> o <> PNone -> add_object d o = Ok (d1, r) ->
  exists row, open_row d row /\ r = (0, Z.of_nat (length row)) /\ (exists e, open_row d1 (row ++ [SDict e])) /\ d_data d1 = d_data d /\
    editable d1 /\ value d1 (snd r) = Ok o /\ forall k, 0 <= k < snd r -> value d1 k = value d k.
Proof.
  intros ED NN A. pose proof ED as (PL & (p & P) & (row & O) & H).
  destruct (add_fresh d o d1 r A (fun row O => proj1 (H row O)) (ex_intro _ p P) (editable_coherent d ED) NN) as (l & row' & El & Er & (e & E1) & D1 & C1 & V1 & V2 & LC).
  assert (row' = row) by (apply (open_fun d); [exists l; auto|auto]). subst row'. exists row. split; [auto|]. split; [auto|].
  assert (O1 : open_row d1 (row ++ [SDict e])) by (exists l; auto). split; [eauto|]. split; [auto|]. split; [|auto].
  destruct (add_inv d o d1 r A) as (l2 & row2 & El2 & _ & _ & E1'). assert (row2 = row) by (apply (open_fun d); [exists l2; auto|auto]). subst row2.
  rewrite E1' in E1. cbn [d_index] in E1. apply app_inj_tail in E1. destruct E1 as [_ E1]. apply app_inj_tail in E1. destruct E1 as [_ E1]. injection E1 as <-.
  set (e := with_dver _ _) in *.
  assert (U : forall r, open_row d1 r -> r = row ++ [SDict e]) by (intros r0 Or; now apply (open_fun d1)).
  split; [|split; [|split]].
  - intros r0 k x Or C. rewrite (U r0 Or) in C. rewrite cell_snoc in C. destruct C as [C|[_ X]]; [exact (PL row k x O C)|]. injection X as ->. reflexivity.
  - exists p. unfold provider in *. now rewrite D1.
  - eauto.
  - intros r0 Or. rewrite (U r0 Or). split; [rewrite LC, !app_length; reflexivity|]. intros k s K C. rewrite cell_snoc in C.
    destruct C as [C|[_ ->]]; [exact (proj2 (H row O) k s K C)|]. exists e. split; [auto|]. discriminate.
Qed.
Lemma add_total d o : editable d -> exists d1 r, add_object d o = Ok (d1, r).
Proof.
  intros (PL & (p & P) & (row & O) & H). destruct (H row O) as [H1 H2]. unfold add_object. rewrite (open_last _ _ O). cbn [bind].
  destruct O as [l El]. unfold set_last_row. rewrite El, pyset_last. cbn [bind d_cache]. rewrite pyset_ok by (rewrite app_length; cbn; lia). cbn [bind]. eauto.
Qed.

(* ---------- versions (C55) ---------- *)
Lemma ltb_sooner a : forall b, str_ltb a b = true <-> sooner a b.
Proof.
  induction a as [|x a IH]; intros [|y b]; cbn [str_ltb].
  - split; [discriminate|]. intros [(z & l & E)|(p & z & w & a' & b' & E & _)]; [discriminate|destruct p; discriminate].
  - split; [|auto]. intros _. left. exists y, b. reflexivity.
  - split; [discriminate|]. intros [(z & l & E)|(p & z & w & a' & b' & _ & E & _)]; [discriminate|destruct p; discriminate].
  - destruct (x <? y) eqn:L; [split; [|auto]|destruct (x =? y) eqn:Q; [|split; [discriminate|]]].
    + intros _. right. exists [], x, y, a, b. split; [auto|]. split; [auto|]. lia.
    + apply Z.eqb_eq in Q. subst y. rewrite IH. split.
      * intros [(z & l & E)|(p & z & w & a' & b' & E1 & E2 & LL)].
        -- left. exists z, l. cbn. now rewrite E.
        -- right. exists (x :: p), z, w, a', b'. cbn. rewrite E1, E2. auto.
      * intros [(z & l & E)|(p & z & w & a' & b' & E1 & E2 & LL)].
        -- left. exists z, l. cbn in E. now injection E.
        -- destruct p as [|q p]; cbn in E1, E2; injection E1 as -> E1; injection E2 as E2; [lia|]. right. exists p, z, w, a', b'. auto.
    + intros [(z & l & E)|(p & z & w & a' & b' & E1 & E2 & LL)].
      * cbn in E. injection E as -> _. lia.
      * destruct p as [|q p]; cbn in E1, E2; injection E1 as -> E1; injection E2 as -> E2; lia.
Qed.
Lemma ltb_irrefl a : str_ltb a a = false.
Proof. induction a as [|x a IH]; cbn [str_ltb]; auto. rewrite Z.ltb_irrefl, Z.eqb_refl. auto. Qed.
Lemma ltb_trans a : forall b c, str_ltb a b = true -> str_ltb b c = true -> str_ltb a c = true.
Proof.
  induction a as [|x a IH]; intros [|y b] [|z c]; cbn [str_ltb]; try discriminate; auto.
  destruct (x <? y) eqn:L1, (y <? z) eqn:L2, (x <? z) eqn:L3; auto; try lia; destruct (x =? y) eqn:Q1, (y =? z) eqn:Q2, (x =? z) eqn:Q3; intros; try discriminate; try lia. eapply IH; eauto.
Qed.
Lemma ltb_total a : forall b, str_ltb a b = false -> str_ltb b a = false -> a = b.
Proof.
  induction a as [|x a IH]; intros [|y b]; cbn [str_ltb]; try discriminate; auto.
  destruct (x <? y) eqn:L1, (y <? x) eqn:L2; try discriminate; try lia. replace (x =? y) with true by lia. replace (y =? x) with true by lia. intros. f_equal; [lia|]. auto.
Qed.
Definition smax (a b : bytes) : bytes := if str_ltb a b then b else a.
Lemma smax_greatest a b m : greatest [a; b] m <-> m = smax a b.
Proof.
  unfold greatest, smax. split.
  - intros [I H]. assert (Ha := H a (or_introl eq_refl)). assert (Hb := H b (or_intror (or_introl eq_refl))). rewrite <- ltb_sooner in Ha, Hb.
    destruct I as [<-|[<-|[]]].
    + destruct (str_ltb a b); [exfalso; apply Hb; auto|auto].
    + destruct (str_ltb a b) eqn:E; auto. symmetry. apply ltb_total; auto. destruct (str_ltb b a); [exfalso; apply Ha; auto|auto].
  - intros ->. destruct (str_ltb a b) eqn:E; cbn [In]; (split; [auto|]); intros x [<-|[<-|[]]]; rewrite <- ltb_sooner; try rewrite ltb_irrefl; try congruence.
    intro E2. pose proof (ltb_trans _ _ _ E E2). rewrite ltb_irrefl in H. discriminate.
Qed.
Lemma smax_assoc a b c : smax a (smax b c) = smax (smax a b) c.
Proof.
  unfold smax. destruct (str_ltb b c) eqn:BC, (str_ltb a b) eqn:AB; rewrite ?BC, ?AB; auto.
  - rewrite (ltb_trans _ _ _ AB BC). auto.
  - destruct (str_ltb a c) eqn:AC; auto. destruct (str_ltb c b) eqn:CB.
    + pose proof (ltb_trans _ _ _ AC CB). congruence.
    + pose proof (ltb_total _ _ BC CB). congruence.
Qed.

(* ---------- dependencies (C42) ---------- *)
Lemma follows_ro d d1 o o' : read_only d d1 -> follows d1 o o' <-> follows d o o'.
Proof.
  intro R. split; intro F; inversion F; subst.
  - econstructor; eauto.
  - constructor; auto.
  - constructor; auto. rewrite <- (ro_values _ _ R); auto.
  - econstructor; eauto.
  - constructor; auto.
  - constructor; auto. rewrite (ro_values _ _ R); auto.
Qed.
Lemma reaches_ro d d1 o r : read_only d d1 -> reaches d1 o r <-> reaches d o r.
Proof.
  intro R. split; intro H; induction H; try constructor; econstructor; eauto.
  - now apply (follows_ro d d1).
  - now apply (follows_ro d d1).
Qed.
Lemma resolved_ro d d1 o : read_only d d1 -> resolved d o -> resolved d1 o.
Proof. intros R H g n X. apply (reaches_ro d d1) in X; auto. destruct (H g n X) as [N V]. split; [auto|]. rewrite (ro_values _ _ R); auto. Qed.
Lemma reaches_step d o r : reaches d o r <-> o = PRef (fst r) (snd r) \/ exists o', follows d o o' /\ reaches d o' r.
Proof.
  split.
  - intro H. destruct H; [left; reflexivity|right; eauto].
  - intros [->|(o' & F & H)]; [destruct r; constructor|econstructor; eauto].
Qed.
Definition nonneg (d : doc) (o : obj) : Prop := forall g n, reaches d o (g, n) -> 0 <= n.
Lemma nonneg_ro d d1 o : read_only d d1 -> nonneg d o -> nonneg d1 o.
Proof. intros R H g n X. apply (reaches_ro d d1) in X; auto. eauto. Qed.
Lemma nonneg_step d o o' : nonneg d o -> follows d o o' -> nonneg d o'.
Proof. intros H F g n X. apply (H g n). econstructor; eauto. Qed.
Lemma resolved_step d o o' : resolved d o -> follows d o o' -> resolved d o'.
Proof. intros H F g n X. apply (H g n). econstructor; eauto. Qed.
Lemma resolved_nonneg d o : resolved d o -> nonneg d o.
Proof. intros H g n X. now apply (H g n). Qed.

Section Step.
Context (f : nat) (IH : forall d o l d1, coherent d -> nonneg d o -> dependencies f d o = Ok (l, d1) -> read_only d d1 /\ (forall r, In r l <-> reaches d o r) /\ Acc (fun b a => follows d a b) o).
Lemma deps_list_spec x : forall d l d1, coherent d -> (forall o, In o x -> nonneg d o) -> deps_list (dependencies f) d x = Ok (l, d1) ->
  read_only d d1 /\ (forall r, In r l <-> exists o, In o x /\ reaches d o r) /\ forall o, In o x -> Acc (fun b a => follows d a b) o.
Proof.
  induction x as [|o x IHx]; intros d l d1 C NN; cbn [deps_list].
  - intro E. injection E as <- <-. split; [now apply read_only_refl|]. split; [|intros o []]. intro r. split; [intros []|intros (o & [] & _)].
  - destruct (dependencies f d o) as [[a da]| |] eqn:E1; cbn [bind]; try discriminate.
    destruct (IH _ _ _ _ C (NN o (or_introl eq_refl)) E1) as (R1 & S1 & A1).
    destruct (deps_list (dependencies f) da x) as [[b db]| |] eqn:E2; cbn [bind]; try discriminate. intro E. injection E as <- <-.
    destruct (IHx da b db (ro_coherent _ _ R1)) as (R2 & S2 & A2); [intros z I; eapply nonneg_ro; eauto; apply NN; now right|auto|].
    split; [eapply read_only_trans; eauto|]. split.
    + intro r. rewrite in_app_iff, S1, S2. cbn [In]. split.
      * intros [H|(z & I & H)]; [eauto|]. exists z. split; [auto|]. now apply (reaches_ro d da).
      * intros (z & [<-|I] & H); [auto|]. right. exists z. split; [auto|]. now apply (reaches_ro d da).
    + intros z [<-|I]; [auto|]. specialize (A2 z I). clear -A2 R1. induction A2 as [z _ IHz]. constructor. intros y F. apply IHz. now apply (follows_ro d da).
Qed.
Lemma deps_dict_spec x : forall d l d1, coherent d -> (forall k o, In (k, o) x -> k <> K_Parent -> k <> K_P -> nonneg d o) -> deps_dict (dependencies f) d x = Ok (l, d1) ->
  read_only d d1 /\ (forall r, In r l <-> exists k o, In (k, o) x /\ k <> K_Parent /\ k <> K_P /\ reaches d o r) /\
  forall k o, In (k, o) x -> k <> K_Parent -> k <> K_P -> Acc (fun b a => follows d a b) o.
Proof.
  induction x as [|[k o] x IHx]; intros d l d1 C NN; cbn [deps_dict].
  - intro E. injection E as <- <-. split; [now apply read_only_refl|]. split; [|intros k o []]. intro r. split; [intros []|intros (k & o & [] & _)].
  - destruct (beqb k K_Parent || beqb k K_P) eqn:EK.
    + intro E. destruct (IHx d l d1 C) as (R1 & S1 & A1); [intros; eapply NN; eauto; now right|auto|]. split; [auto|].
      assert (BAD : ~ (k <> K_Parent /\ k <> K_P)). { apply orb_true_iff in EK. rewrite !beqb_eq in EK. tauto. }
      split.
      * intro r. rewrite S1. split.
        -- intros (k' & o' & I & H). exists k', o'. split; [now right|auto].
        -- intros (k' & o' & [X|I] & H1 & H2 & H3); [injection X as <- <-; tauto|eauto 10].
      * intros k' o' [X|I] H1 H2; [injection X as <- <-; tauto|eauto].
    + apply orb_false_iff in EK. assert (NK : k <> K_Parent /\ k <> K_P). { rewrite <- !beqb_eq. destruct EK as [-> ->]. split; discriminate. }
      destruct NK as [NK1 NK2].
      destruct (dependencies f d o) as [[a da]| |] eqn:E1; cbn [bind]; try discriminate.
      destruct (IH _ _ _ _ C (NN k o (or_introl eq_refl) NK1 NK2) E1) as (R1 & S1 & A1).
      destruct (deps_dict (dependencies f) da x) as [[b db]| |] eqn:E2; cbn [bind]; try discriminate. intro E. injection E as <- <-.
      destruct (IHx da b db (ro_coherent _ _ R1)) as (R2 & S2 & A2); [intros k' z I H1 H2; eapply nonneg_ro; eauto; eapply NN; eauto; now right|auto|].
      split; [eapply read_only_trans; eauto|]. split.
      * intro r. rewrite in_app_iff, S1, S2. cbn [In]. split.
        -- intros [H|(k' & z & I & H1 & H2 & H)]; [exists k, o; auto|]. exists k', z. split; [auto|]. split; [auto|]. split; [auto|]. now apply (reaches_ro d da).
        -- intros (k' & z & [X|I] & H1 & H2 & H); [injection X as <- <-; auto|]. right. exists k', z. split; [auto|]. split; [auto|]. split; [auto|]. now apply (reaches_ro d da).
      * intros k' z [X|I] H1 H2; [injection X as <- <-; auto|]. specialize (A2 k' z I H1 H2). clear -A2 R1. induction A2 as [z _ IHz]. constructor. intros y F. apply IHz. now apply (follows_ro d da).
Qed.
End Step.
Lemma deps_spec f : forall d o l d1, coherent d -> nonneg d o -> dependencies f d o = Ok (l, d1) ->
  read_only d d1 /\ (forall r, In r l <-> reaches d o r) /\ Acc (fun b a => follows d a b) o.
Proof.
  induction f as [|f IH]; intros d o l d1 C NN E; [discriminate|]. cbn [dependencies] in E.
  assert (ATOM : (forall x, ~ follows d o x) -> (forall g n, o <> PRef g n) -> Ok (@nil ref, d) = Ok (l, d1) ->
     read_only d d1 /\ (forall r, In r l <-> reaches d o r) /\ Acc (fun b a => follows d a b) o).
  { intros NF NR X. injection X as <- <-. split; [now apply read_only_refl|]. split; [|constructor; intros y F; destruct (NF y F)].
    intro r. split; [intros []|]. intro H. apply reaches_step in H. destruct H as [H|(o' & F & _)]; [now apply NR in H|now apply NF in F]. }
  destruct o; try (apply ATOM; [intros x F; inversion F|intros; discriminate|exact E]); clear ATOM.
  - destruct (get_object d (PRef gen num)) as [[v dv]| |] eqn:G; cbn [bind] in E; try discriminate.
    assert (N : 0 <= num) by (eapply NN; constructor).
    assert (V : value d num = Ok v) by (eapply value_get; eauto).
    assert (F0 : follows d (PRef gen num) v) by now constructor.
    pose proof (get_ro d gen num v dv C N G) as R1.
    destruct (dependencies f dv v) as [[a da]| |] eqn:E2; cbn [bind] in E; try discriminate. injection E as <- <-.
    destruct (IH dv v a da (ro_coherent _ _ R1)) as (R2 & S2 & A2); [eapply nonneg_ro; eauto; eapply nonneg_step; eauto|auto|].
    split; [eapply read_only_trans; eauto|]. split.
    + intros [g' n']. cbn [In]. rewrite S2, (reaches_step d (PRef gen num)). cbn [fst snd]. split.
      * intros [X|H]; [injection X as <- <-; auto|]. right. exists v. split; [auto|]. now apply (reaches_ro d dv).
      * intros [X|(o' & F & H)]; [injection X as <- <-; auto|]. right. inversion F; subst. replace o' with v in * by congruence. now apply (reaches_ro d dv).
    + constructor. intros y F. inversion F; subst. replace y with v in * by congruence. clear -A2 R1. induction A2 as [z _ IHz]. constructor. intros y F. apply IHz. now apply (follows_ro d dv).
  - destruct (deps_list_spec f IH _ d _ _ C (fun o I => nonneg_step _ _ _ NN (Fo_list d _ _ I)) E) as (R & S1 & A1). split; [auto|]. split.
    + intro r. rewrite S1, reaches_step. split.
      * intros (o & I & H). right. exists o. split; [now constructor|auto].
      * intros [X|(o' & F & H)]; [discriminate|]. inversion F; subst. eauto.
    + constructor. intros y F. inversion F; subst. auto.
  - destruct (deps_dict_spec f IH _ d _ _ C (fun k o I H1 H2 => nonneg_step _ _ _ NN (Fo_dict d _ _ _ I H1 H2)) E) as (R & S1 & A1). split; [auto|]. split.
    + intro r. rewrite S1, reaches_step. split.
      * intros (k & o & I & H1 & H2 & H). right. exists o. split; [econstructor; eauto|auto].
      * intros [X|(o' & F & H)]; [discriminate|]. inversion F; subst. eauto 10.
    + constructor. intros y F. inversion F; subst. eauto.
Qed.
Lemma deps_list_ext (a b : doc -> obj -> res (list ref * doc)) (H : forall d o x, a d o = Ok x -> b d o = Ok x) l : forall d x, deps_list a d l = Ok x -> deps_list b d l = Ok x.
Proof.
  induction l as [|o l IH]; intros d x; cbn [deps_list]; auto. destruct (a d o) as [[u d1]| |] eqn:E; cbn [bind]; try discriminate. rewrite (H _ _ _ E). cbn [bind].
  destruct (deps_list a d1 l) as [y| |] eqn:E2; cbn [bind]; try discriminate. rewrite (IH _ _ E2). auto.
Qed.
Lemma deps_dict_ext (a b : doc -> obj -> res (list ref * doc)) (H : forall d o x, a d o = Ok x -> b d o = Ok x) l : forall d x, deps_dict a d l = Ok x -> deps_dict b d l = Ok x.
Proof.
  induction l as [|[k o] l IH]; intros d x; cbn [deps_dict]; auto. destruct (beqb k K_Parent || beqb k K_P); [auto|].
  destruct (a d o) as [[u d1]| |] eqn:E; cbn [bind]; try discriminate. rewrite (H _ _ _ E). cbn [bind].
  destruct (deps_dict a d1 l) as [y| |] eqn:E2; cbn [bind]; try discriminate. rewrite (IH _ _ E2). auto.
Qed.
Lemma deps_mono f : forall f' d o x, (f <= f')%nat -> dependencies f d o = Ok x -> dependencies f' d o = Ok x.
Proof.
  induction f as [|f IH]; intros [|f'] d o x L E; try discriminate; [lia|]. cbn [dependencies] in *. assert (L' : (f <= f')%nat) by lia. destruct o; auto.
  - destruct (get_object d (PRef gen num)) as [[v dv]| |]; cbn [bind] in *; try discriminate. destruct (dependencies f dv v) as [y| |] eqn:E2; cbn [bind] in *; try discriminate. now rewrite (IH f' _ _ _ L' E2).
  - revert E. apply deps_list_ext. intros. now apply (IH f').
  - revert E. apply deps_dict_ext. intros. now apply (IH f').
Qed.
Lemma deps_total d : forall o, Acc (fun b a => follows d a b) o -> resolved d o ->
  exists f, forall d', read_only d d' -> exists x, dependencies f d' o = Ok x.
Proof.
  intros o A. induction A as [o _ IH]. intros RS.
  assert (KID : forall o', follows d o o' -> exists f, forall d', read_only d d' -> exists x, dependencies f d' o' = Ok x).
  { intros o' F. apply IH; auto. eapply resolved_step; eauto. }
  assert (RO : forall f d1 o' x, resolved d o' -> read_only d d1 -> dependencies f d1 o' = Ok x -> read_only d (snd x)).
  { intros f d1 o' [l d2] RS' R1 E. destruct (deps_spec f d1 o' l d2 (ro_coherent _ _ R1)) as (R2 & _); [eapply nonneg_ro; eauto; now apply resolved_nonneg|auto|]. eapply read_only_trans; eauto. }
  destruct o; try (exists 1%nat; intros d' R; eexists; reflexivity).
  - destruct (RS gen num (Re_here d gen num)) as [N [v V]]. destruct (KID v ltac:(now constructor)) as (f & H). exists (S f). intros d' R.
    destruct (read_ok d' gen num v (ro_coherent _ _ R) N) as (dv & G & R1); [rewrite (ro_values _ _ R); auto|].
    destruct (H dv ltac:(eapply read_only_trans; eauto)) as ([l d2] & E). cbn [dependencies]. rewrite G. cbn [bind]. rewrite E. cbn [bind]. eauto.
  - assert (H : forall x, (forall o, In o x -> In o l) -> exists f, forall d', read_only d d' -> exists y, deps_list (dependencies f) d' x = Ok y).
    { induction x as [|o x IHx]; intros SUB; [exists 0%nat; intros; eexists; reflexivity|].
      assert (F : follows d (PList l) o) by (constructor; apply SUB; now left).
      destruct (KID o F) as (f1 & H1). destruct (IHx ltac:(intros; apply SUB; now right)) as (f2 & H2). exists (Nat.max f1 f2). intros d' R.
      destruct (H1 d' R) as ([u d1] & E1). pose proof (RO f1 d' o _ (resolved_step _ _ _ RS F) R E1) as R1. cbn [snd] in R1. destruct (H2 d1 R1) as ([w d2] & E2). cbn [deps_list].
      rewrite (deps_mono f1 (Nat.max f1 f2) _ _ _ ltac:(lia) E1). cbn [bind].
      rewrite (deps_list_ext (dependencies f2) (dependencies (Nat.max f1 f2)) (fun d o x => deps_mono f2 (Nat.max f1 f2) d o x ltac:(lia)) _ _ _ E2). cbn [bind]. eauto. }
    destruct (H l (fun o I => I)) as (f & E). exists (S f). exact E.
  - assert (H : forall x, (forall k o, In (k, o) x -> In (k, o) d0) -> exists f, forall d', read_only d d' -> exists y, deps_dict (dependencies f) d' x = Ok y).
    { induction x as [|[k o] x IHx]; intros SUB; [exists 0%nat; intros; eexists; reflexivity|]. cbn [deps_dict].
      destruct (beqb k K_Parent || beqb k K_P) eqn:EK; [apply IHx; auto; intros; apply SUB; now right|].
      apply orb_false_iff in EK. assert (NK : k <> K_Parent /\ k <> K_P). { rewrite <- !beqb_eq. destruct EK as [-> ->]. split; discriminate. }
      assert (F : follows d (PDict d0) o) by (apply (Fo_dict d d0 k); [apply SUB; now left|tauto|tauto]).
      destruct (KID o F) as (f1 & H1). destruct (IHx ltac:(intros; apply SUB; now right)) as (f2 & H2). exists (Nat.max f1 f2). intros d' R.
      destruct (H1 d' R) as ([u d1] & E1). pose proof (RO f1 d' o _ (resolved_step _ _ _ RS F) R E1) as R1. cbn [snd] in R1. destruct (H2 d1 R1) as ([w d2] & E2).
      rewrite (deps_mono f1 (Nat.max f1 f2) _ _ _ ltac:(lia) E1). cbn [bind].
      rewrite (deps_dict_ext (dependencies f2) (dependencies (Nat.max f1 f2)) (fun d o x => deps_mono f2 (Nat.max f1 f2) d o x ltac:(lia)) _ _ _ E2). cbn [bind]. eauto. }
    destruct (H d0 (fun k o I => I)) as (f & E). exists (S f). exact E.
Qed.
(* without an answer, the calls never end *)
Lemma deps_noexc f : forall d o e, coherent d -> resolved d o -> dependencies f d o <> Exc e.
Proof.
  induction f as [|f IH]; intros d o e C RS; [discriminate|]. cbn [dependencies]. destruct o; try discriminate.
  - destruct (RS gen num (Re_here d gen num)) as [N [v V]]. destruct (read_ok d gen num v C N V) as (dv & G & R1). rewrite G. cbn [bind].
    assert (RV : resolved dv v) by (eapply resolved_ro; eauto; eapply resolved_step; eauto; now constructor).
    destruct (dependencies f dv v) as [[a da]|e'|] eqn:E2; cbn [bind]; try discriminate. exfalso. exact (IH dv v e' (ro_coherent _ _ R1) RV E2).
  - assert (RK : forall o, In o l -> resolved d o) by (intros; eapply resolved_step; eauto; now constructor). clear RS. revert d C RK. induction l as [|o l IHl]; intros d C RK; cbn [deps_list]; [discriminate|].
    assert (R0 := RK o (or_introl eq_refl)). destruct (dependencies f d o) as [[a da]|e'|] eqn:E2; cbn [bind]; try discriminate; [|exfalso; exact (IH d o e' C R0 E2)].
    destruct (deps_spec f d o a da C (resolved_nonneg _ _ R0) E2) as (R1 & _).
    specialize (IHl da (ro_coherent _ _ R1) ltac:(intros; eapply resolved_ro; eauto; apply RK; now right)). destruct (deps_list _ _ _) as [[b db]|e'|]; cbn [bind]; try discriminate. congruence.
  - assert (RK : forall k o, In (k, o) d0 -> k <> K_Parent -> k <> K_P -> resolved d o) by (intros; eapply resolved_step; eauto; econstructor; eauto). clear RS. revert d C RK. induction d0 as [|[k o] l IHl]; intros d C RK; cbn [deps_dict]; [discriminate|].
    destruct (beqb k K_Parent || beqb k K_P) eqn:EK; [apply IHl; auto; intros; eapply RK; eauto; now right|].
    apply orb_false_iff in EK. assert (NK : k <> K_Parent /\ k <> K_P). { rewrite <- !beqb_eq. destruct EK as [-> ->]. split; discriminate. }
    assert (R0 := RK k o (or_introl eq_refl) (proj1 NK) (proj2 NK)). destruct (dependencies f d o) as [[a da]|e'|] eqn:E2; cbn [bind]; try discriminate; [|exfalso; exact (IH d o e' C R0 E2)].
    destruct (deps_spec f d o a da C (resolved_nonneg _ _ R0) E2) as (R1 & _).
    specialize (IHl da (ro_coherent _ _ R1) ltac:(intros; eapply resolved_ro; eauto; eapply RK; eauto; now right)). destruct (deps_dict _ _ _) as [[b db]|e'|]; cbn [bind]; try discriminate. congruence.
Qed.

(* ---------- versions ---------- *)
Lemma version_inv d c cat v d1 : coherent d -> catalog_at d c cat -> version d = Ok (v, d1) ->
  exists w cv, v = match cv with Some x => smax w x | None => w end /\ cat_version (PDict cat) = Ok cv /\ read_only d d1 /\
  forall d2 c2 cat2 cv2, coherent d2 -> d_data d2 = d_data d -> catalog_at d2 c2 cat2 -> cat_version (PDict cat2) = Ok cv2 ->
    exists d3, version d2 = Ok (match cv2 with Some x => smax w x | None => w end, d3).
Proof.
  intros C CA. unfold version. unfold fdata_at. destruct (pyget (d_data d) 0) as [dt| |] eqn:E0; cbn [bind]; try discriminate.
  destruct (of_opt EKeyError (dt_fdata dt)) as [p| |] eqn:E1; cbn [bind]; try discriminate.
  destruct (read_at p 5 3) as [[[t a0] z]| |] eqn:E2; cbn [bind]; try discriminate.
  destruct (catalog_read d c cat C CA) as (g & dc & EC & RC). rewrite EC. cbn [bind].
  destruct (cat_version (PDict cat)) as [cv| |] eqn:E3; cbn [bind]; try discriminate.
  destruct (ascii (sub t a0 (a0 + 3))) as [w| |] eqn:E4; cbn [bind]; try (destruct cv; discriminate).
  intro H. exists w, cv. split; [destruct cv; cbn [bind] in H; now injection H as <- _|]. split; [auto|]. split; [destruct cv; cbn [bind] in H; injection H as _ <-; auto|].
  intros d2 c2 cat2 cv2 C2 DD CA2 CV2. rewrite DD, E0. cbn [bind]. rewrite E1. cbn [bind]. rewrite E2. cbn [bind].
  destruct (catalog_read d2 c2 cat2 C2 CA2) as (g2 & dc2 & EC2 & _). rewrite EC2. cbn [bind]. rewrite CV2. cbn [bind]. rewrite E4. destruct cv2; cbn [bind]; eexists; reflexivity.
Qed.
Lemma upgrade_spec d c cat v0 d1 v : editable d -> catalog_at d c cat -> version d = Ok (v0, d1) ->
  exists d2 d3 w cat', update_version d v = Ok d2 /\ version d2 = Ok (w, d3) /\ greatest [v0; v] w /\ editable d2 /\ d_data d2 = d_data d /\
    (forall n, 0 <= n -> n <> c -> value d2 n = value d n) /\ catalog_at d2 c cat' /\ forall k, k <> K_Version -> dget k cat' = dget k cat.
Proof.
  intros ED CA EV. pose proof (editable_coherent d ED) as C. destruct (version_inv d c cat v0 d1 C CA EV) as (w & cv & Ev0 & CV & R1 & NEXT).
  destruct (catalog_read d c cat C CA) as (g & dc & EC & RC). pose proof CA as (t & r & V0 & GR & (g' & Er & N & Vc)).
  unfold update_version. rewrite EC. cbn [bind]. rewrite CV. cbn [bind dict_of ref_of snd].
  pose proof (editable_ro _ _ ED RC) as EDc.
  assert (RANGE : forall row, open_row dc row -> c < Z.of_nat (length row)). { intros row O. eapply (value_range dc c (PDict cat)); [lia| |exact O]. rewrite (ro_values _ _ RC); [auto|lia]. }
  destruct (update_total dc c (PDict (dset K_Version (PStr (47 :: v)) cat)) EDc N RANGE) as [du U].
  destruct (update_spec dc c _ du EDc N U) as [E2 D2 _ V2 O2].
  assert (CA2 : catalog_at du c (dset K_Version (PStr (47 :: v)) cat)).
  { exists t, r. split; [rewrite O2 by lia; rewrite (ro_values _ _ RC); [auto|lia]|]. split; [auto|]. exists g'. auto. }
  assert (SET : (exists d3, version du = Ok (smax w v, d3)) /\ forall n, 0 <= n -> n <> c -> value du n = value d n).
  { split.
    - apply (NEXT du c (dset K_Version (PStr (47 :: v)) cat) (Some v)); auto; [now apply editable_coherent|rewrite D2; apply (ro_data _ _ RC)|]. unfold cat_version. rewrite dget_dset_eq. reflexivity.
    - intros n Nn NE. rewrite O2 by auto. apply (ro_values _ _ RC); auto. }
  destruct SET as [(d3 & ED3) SO].
  assert (KEYS : forall k, k <> K_Version -> dget k (dset K_Version (PStr (47 :: v)) cat) = dget k cat) by (intros k K; now apply dget_dset_neq; auto).
  destruct cv as [x|].
  - destruct (str_ltb x v) eqn:L.
    + rewrite U. exists du, d3, (smax w v), (dset K_Version (PStr (47 :: v)) cat). split; [auto|]. split; [auto|]. split; [|split; [auto|split; [rewrite D2; apply (ro_data _ _ RC)|auto]]].
      apply smax_greatest. rewrite Ev0, <- smax_assoc. f_equal. unfold smax. now rewrite L.
    + destruct (NEXT dc c cat (Some x) (ro_coherent _ _ RC) (ro_data _ _ RC) (catalog_ro _ _ _ _ RC CA) CV) as (d4 & E4). exists dc, d4, (smax w x), cat. split; [auto|]. split; [auto|].
      split; [|split; [auto|split; [apply (ro_data _ _ RC)|split; [|split; [eapply catalog_ro; eauto|auto]]]]].
      * apply smax_greatest. rewrite Ev0, <- smax_assoc. f_equal. unfold smax. now rewrite L.
      * intros n Nn _. apply (ro_values _ _ RC); auto.
  - rewrite U. exists du, d3, (smax w v), (dset K_Version (PStr (47 :: v)) cat). split; [auto|]. split; [auto|]. split; [|split; [auto|split; [rewrite D2; apply (ro_data _ _ RC)|auto]]].
    apply smax_greatest. now rewrite Ev0.
Qed.
End WithZlib.
