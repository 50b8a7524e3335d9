(* Fuel adequacy, locality and termination of parse_obj (model of objects.py:206-286) *)
From Coq Require Import ZifyBool ZifyNat.
From Verif Require Import PyBase Model_Filters Model_Objects Spec_Objects Facts_Base Facts_Token Facts_Obj Facts_Ser.

Section WithZlib.
Context {ZL : Zlib}.

Lemma ntb t i h j k : next_token t i = (h, j, k) -> (i <= length t)%nat ->
  (i <= h)%nat /\ (h <= j)%nat /\ (j <= length t)%nat /\ (k <> None -> (h < j)%nat).
Proof. intros E L. eapply next_token_bounds; eauto. Qed.

Lemma next_token_ge t i h j k : next_token t i = (h, j, k) -> (i <= h <= j)%nat.
Proof. intros E. unfold next_token in E. apply ntok_bounds in E; try lia. congruence. Qed.

Lemma next_token_le t i h j k : next_token t i = (h, j, k) -> (j <= Nat.max i (length t))%nat.
Proof.
  intros E. unfold next_token in E. apply ntok_bounds in E; try lia; [|congruence].
  rewrite skipn_length in E. lia.
Qed.

(* a call that does not advance finds nothing *)
Lemma next_token_noadv t i h k : next_token t i = (h, i, k) -> (i < length t)%nat -> h = i /\ k = None /\ nth i t 0 = 93.
Proof.
  intros E L. destruct (Z.eq_dec (nth i t 0) 93) as [Q|Q].
  - rewrite next_token_stuck in E by auto. inversion E; subst. auto.
  - apply next_token_progress in E; auto. lia.
Qed.

Lemma items_stuck p isd t j1 i h : (i < j1 - 1)%nat -> next_token t i = (h, i, None) ->
  forall fuel, items_loop p isd t j1 fuel i = Loop.
Proof.
  intros L E. induction fuel; auto. rewrite items_S.
  replace (Nat.ltb i (j1 - 1)) with true by (symmetry; apply Nat.ltb_lt; auto). rewrite E. auto.
Qed.

Lemma items_fuel p isd t j1 : (j1 <= length t)%nat -> forall n i f1 f2,
  (length t - i <= n)%nat -> (n < f1)%nat -> (n < f2)%nat ->
  items_loop p isd t j1 f1 i = items_loop p isd t j1 f2 i.
Proof.
  intros J. induction n; intros i f1 f2 L L1 L2; (destruct f1 as [|f1]; [lia|]); (destruct f2 as [|f2]; [lia|]).
  - rewrite !items_S. replace (Nat.ltb i (j1 - 1)) with false by (symmetry; apply Nat.ltb_ge; lia). auto.
  - rewrite !items_S. destruct (Nat.ltb i (j1 - 1)) eqn:E; auto. apply Nat.ltb_lt in E.
    destruct (next_token t i) as [[h i'] tk] eqn:N.
    destruct (next_token_ge _ _ _ _ _ N). pose proof (next_token_le _ _ _ _ _ N).
    destruct (Nat.eq_dec i' i) as [->|NE].
    + destruct (next_token_noadv _ _ _ _ N ltac:(lia)) as (-> & -> & _).
      rewrite !(items_stuck p isd t j1 i i) by auto. auto.
    + assert (Q : items_loop p isd t j1 f1 i' = items_loop p isd t j1 f2 i') by (apply IHn; lia).
      rewrite Q. auto.
Qed.

Lemma items_ext p q isd t j1 f : (forall s, (length s < length t)%nat -> p s = q s) ->
  forall i, (0 < i)%nat -> (0 < length t)%nat -> items_loop p isd t j1 f i = items_loop q isd t j1 f i.
Proof.
  intros H. induction f; intros i Hi Ht; auto. rewrite !items_S.
  destruct (Nat.ltb i (j1 - 1)); auto. destruct (next_token t i) as [[h i'] tk] eqn:N.
  destruct (next_token_ge _ _ _ _ _ N).
  rewrite IHf by lia. destruct tk as [[]|]; auto.
  all: destruct (isd && negb (Nat.ltb i' j1)); auto.
  all: rewrite H; auto; pose proof (sub_length_le2 t h i'); lia.
Qed.

(* with enough fuel, more fuel does not change anything *)
Theorem pobj_fuel t : forall i f1 f2, (length t < f1)%nat -> (length t < f2)%nat -> pobj f1 t i = pobj f2 t i.
Proof.
  induction t as [t IH] using list_len_ind. intros i f1 f2 L1 L2.
  destruct f1 as [|f1]; [lia|]. destruct f2 as [|f2]; [lia|].
  assert (P : forall s, (length s < length t)%nat -> pobj f1 s 0 = pobj f2 s 0) by (intros; apply IH; lia).
  rewrite !pobj_S. destruct (next_token t i) as [[h1 j1] t1] eqn:N1.
  destruct t1 as [[]|]; auto.
  - (* TDict *)
    destruct (Nat.ltb_spec i (length t)).
    2:{ exfalso. unfold next_token in N1. rewrite skipn_all2 in N1 by lia. discriminate. }
    destruct (ntb _ _ _ _ _ N1 ltac:(lia)) as (B1 & B2 & B3 & B4).
    destruct (next_token t j1) as [[h2 j2] t2] eqn:N2.
    destruct (ntb _ _ _ _ _ N2 ltac:(lia)) as (C1 & C2 & C3 & C4).
    assert (Q : items_loop (fun s => pobj f1 s 0) true t j1 (S (length t)) (i + 2)
              = items_loop (fun s => pobj f2 s 0) true t j1 (S (length t)) (i + 2))
      by (apply items_ext; auto; lia).
    rewrite Q. destruct t2 as [[]|]; auto.
    specialize (B4 ltac:(discriminate)). specialize (C4 ltac:(discriminate)).
    rewrite (P (sub t h1 j1)) by (rewrite sub_length; lia).
    rewrite (P (sub t h2 j2)) by (rewrite sub_length; lia). auto.
  - (* TArray *)
    destruct (Nat.ltb_spec i (length t)).
    2:{ exfalso. unfold next_token in N1. rewrite skipn_all2 in N1 by lia. discriminate. }
    assert (Q : items_loop (fun s => pobj f1 s 0) false t j1 (S (length t)) (i + 1)
              = items_loop (fun s => pobj f2 s 0) false t j1 (S (length t)) (i + 1))
      by (apply items_ext; auto; lia).
    rewrite Q. auto.
Qed.

(* less fuel gives the same result or none *)
Lemma items_mono p q isd t j1 f : (forall s, p s <> Loop -> q s = p s) ->
  forall i, items_loop p isd t j1 f i <> Loop -> items_loop q isd t j1 f i = items_loop p isd t j1 f i.
Proof.
  intros H. induction f; intros i; [cbn; congruence|]. rewrite !items_S.
  destruct (Nat.ltb i (j1 - 1)); auto. destruct (next_token t i) as [[h i'] tk].
  destruct tk as [[]|]; auto.
  all: destruct (isd && negb (Nat.ltb i' j1)); auto.
  all: match goal with |- bind ?x _ <> _ -> _ => destruct x eqn:E; cbn [bind]; try congruence end;
    try (rewrite H by congruence; rewrite E; cbn [bind]; auto).
  all: cbn [bind]; auto.
  all: intros L; destruct (items_loop p isd t j1 f i') eqn:E2; cbn [bind] in *; try congruence;
       rewrite IHf by congruence; rewrite E2; auto.
Qed.

Lemma pobj_mono f : forall t i, pobj f t i <> Loop -> pobj (S f) t i = pobj f t i.
Proof.
  induction f; intros t i; [cbn; congruence|].
  rewrite (pobj_S (S f)), (pobj_S f). destruct (next_token t i) as [[h1 j1] t1].
  assert (P : forall s, pobj f s 0 <> Loop -> pobj (S f) s 0 = pobj f s 0) by (intros; apply IHf; auto).
  destruct t1 as [[]|]; auto.
  - destruct (next_token t j1) as [[h2 j2] t2].
    assert (G : forall g : list obj -> res obj,
      bind (items_loop (fun s => pobj f s 0) true t j1 (S (length t)) (i + 2)) g <> Loop ->
      bind (items_loop (fun s => pobj (S f) s 0) true t j1 (S (length t)) (i + 2)) g
      = bind (items_loop (fun s => pobj f s 0) true t j1 (S (length t)) (i + 2)) g).
    { intros g L. rewrite (items_mono (fun s => pobj f s 0) (fun s => pobj (S f) s 0)); auto.
      intros Q. rewrite Q in L. auto. }
    destruct t2 as [[]|]; auto.
    intros L. destruct (pobj f (sub t h1 j1) 0) eqn:E1; cbn [bind] in L; try congruence.
    + rewrite P by congruence. rewrite E1. cbn [bind].
      destruct (pobj f (sub t h2 j2) 0) eqn:E2; cbn [bind] in L; try congruence.
      * rewrite P by congruence. rewrite E2. auto.
      * rewrite P by congruence. rewrite E2. auto.
    + rewrite P by congruence. rewrite E1. auto.
  - intros L. rewrite (items_mono (fun s => pobj f s 0) (fun s => pobj (S f) s 0)); auto.
    intros Q. rewrite Q in L. auto.
Qed.

(* Loop means that no amount of fuel is enough: the Python loop does not end *)
Theorem parse_obj_Loop t i : parse_obj t i = Loop -> forall f, pobj f t i = Loop.
Proof.
  intros H f. unfold parse_obj in H.
  destruct (Nat.ltb_spec (length t) f).
  - rewrite (pobj_fuel t i f (S (length t))) by lia. auto.
  - assert (M : forall n, pobj f t i <> Loop -> pobj (n + f) t i = pobj f t i).
    { induction n; intros L; auto. cbn [plus]. rewrite pobj_mono; auto. rewrite IHn; auto. }
    destruct (pobj f t i) eqn:E; auto; exfalso.
    all: specialize (M (S (length t)) ltac:(congruence)).
    all: rewrite (pobj_fuel t i _ (S (length t))) in M by lia; congruence.
Qed.

(* ---------- position independence ---------- *)
Lemma sub_shift p t h j : sub (p ++ t) (length p + h) (length p + j) = sub t h j.
Proof. unfold sub. rewrite skipn_app_plus. f_equal. lia. Qed.

Lemma items_shift q isd p t j1 f : forall i,
  (0 < j1)%nat ->
  items_loop q isd (p ++ t) (length p + j1) f (length p + i) = items_loop q isd t j1 f i.
Proof.
  induction f; intros i J; auto. rewrite !items_S.
  replace (Nat.ltb (length p + i) (length p + j1 - 1)) with (Nat.ltb i (j1 - 1)).
  2:{ destruct (Nat.ltb_spec i (j1 - 1)); symmetry; [apply Nat.ltb_lt|apply Nat.ltb_ge]; lia. }
  destruct (Nat.ltb i (j1 - 1)); auto.
  rewrite next_token_app. destruct (next_token t i) as [[h i'] tk]. cbn [shift3].
  rewrite IHf by auto. rewrite sub_shift.
  replace (Nat.ltb (length p + i') (length p + j1)) with (Nat.ltb i' j1).
  2:{ destruct (Nat.ltb_spec i' j1); symmetry; [apply Nat.ltb_lt|apply Nat.ltb_ge]; lia. }
  auto.
Qed.

Theorem parse_obj_shift p t i : parse_obj (p ++ t) (length p + i) = parse_obj t i.
Proof.
  unfold parse_obj.
  rewrite (pobj_fuel t i (S (length t)) (S (length (p ++ t)))) by (rewrite ?app_length; lia).
  set (F := length (p ++ t)). rewrite !pobj_S. rewrite next_token_app.
  destruct (next_token t i) as [[h1 j1] t1] eqn:N1. cbn [shift3].
  assert (LT : t1 <> None -> (i < length t)%nat).
  { intros NN. destruct (Nat.ltb_spec i (length t)); auto.
    unfold next_token in N1. rewrite skipn_all2 in N1 by lia. inversion N1; congruence. }
  assert (FU : forall q isd x, t1 <> None -> (0 < x)%nat ->
     items_loop q isd (p ++ t) (length p + j1) (S (length (p ++ t))) (length p + (i + x))
     = items_loop q isd t j1 (S (length t)) (i + x)).
  { intros q isd x NN X. specialize (LT NN).
    destruct (ntb _ _ _ _ _ N1 ltac:(lia)) as (B1 & B2 & B3 & B4). specialize (B4 NN).
    rewrite items_shift by lia.
    apply (items_fuel q isd t j1 B3 (length t)); rewrite ?app_length; lia. }
  rewrite !sub_shift, !next_token_app.
  destruct t1 as [[]|]; auto.
  - rewrite <- (Nat.add_assoc (length p) i 2), FU by (try lia; discriminate).
    destruct (next_token t j1) as [[h2 j2] t2]. cbn [shift3]. rewrite !sub_shift. auto.
  - rewrite <- (Nat.add_assoc (length p) i 1), FU by (try lia; discriminate). auto.
Qed.

Theorem parse_obj_local t i : (i <= length t)%nat -> parse_obj t i = parse_obj (skipn i t) 0.
Proof.
  intros L. rewrite <- (firstn_skipn i t) at 1.
  rewrite <- (parse_obj_shift (firstn i t) (skipn i t) 0).
  f_equal. rewrite firstn_length. lia.
Qed.

(* ---------- termination ---------- *)
Lemma sub_incl t h j x : In x (sub t h j) -> In x t.
Proof.
  unfold sub. intros I.
  assert (J : In x (skipn h t)). { rewrite <- (firstn_skipn (j - h) (skipn h t)). apply in_or_app; auto. }
  rewrite <- (firstn_skipn h t). apply in_or_app; auto.
Qed.

Lemma sub_occurs t h j p : occurs p (sub t h j) -> occurs p t.
Proof.
  intros (a & b & E). unfold sub in E.
  exists (firstn h t ++ a), (b ++ skipn (j - h) (skipn h t)).
  rewrite <- (firstn_skipn h t) at 1. rewrite <- (firstn_skipn (j - h) (skipn h t)) at 1. rewrite E.
  rewrite <- !app_assoc. auto.
Qed.

Lemma replace_ref_3 a b c r : replace_ref (a :: b :: c :: r) =
  if is_R c then let* x := mk_ref a in let* l' := replace_ref r in Ok (x :: l')
  else let* l' := replace_ref (b :: c :: r) in Ok (a :: l').
Proof. reflexivity. Qed.

Lemma replace_ref_noloop l : replace_ref l <> Loop.
Proof.
  assert (G : forall n l, (length l <= n)%nat -> replace_ref l <> Loop).
  { induction n; intros l' L.
    - destruct l'; [discriminate|cbn in L; lia].
    - destruct l' as [|a [|b [|c r]]]; cbn [length] in L; try discriminate.
      rewrite replace_ref_3. destruct (is_R c).
      + destruct (mk_ref a) eqn:M; cbn [bind]; try discriminate.
        * specialize (IHn r ltac:(lia)). destruct (replace_ref r); cbn; congruence.
        * destruct a; cbn in M; discriminate.
      + specialize (IHn (b :: c :: r) ltac:(cbn; lia)). destruct (replace_ref (b :: c :: r)); cbn; congruence. }
  apply (G (length l)); auto.
Qed.

Lemma pair_up_noloop l : forall d, pair_up d l <> Loop.
Proof.
  assert (G : forall n l, (length l <= n)%nat -> forall d, pair_up d l <> Loop).
  { induction n; intros l' L d.
    - destruct l'; [discriminate|cbn in L; lia].
    - destruct l' as [|v [|k r]]; cbn; try discriminate.
      cbn in L. destruct k; try discriminate. apply IHn. lia. }
  apply (G (length l)); auto.
Qed.

Lemma dedicated_noloop s k : dedicated_type s k <> Loop.
Proof.
  destruct k as [[]|]; cbn; try discriminate.
  - unfold ascii. destruct (is_ascii s); discriminate.
  - unfold ascii. destruct (is_ascii s); discriminate.
  - destruct (py_float s) as [[]|]; discriminate.
  - destruct (py_int 10 s); discriminate.
Qed.

(* a STREAM token starts with the word stream *)
Lemma ntok_stream rest : forall se n tia h cur i h' j,
  se <> SStream ->
  ntok se n tia h cur i rest = (h', j, Some TStream) -> occurs W_stream rest.
Proof.
  induction rest as [rest IH] using list_len_ind. intros se n tia h cur i h' j NS E.
  destruct rest as [|c r]; [discriminate|].
  assert (O1 : occurs W_stream r -> occurs W_stream (c :: r)).
  { intros (a & b & ->). exists (c :: a), b. auto. }
  destruct (starts W_stream (c :: r)) eqn:SW.
  { apply starts_iff in SW as [r' ->]. exists [], r'. auto. }
  destruct se; nstep_in E; try congruence.
  all: repeat match type of E with
       | (if ?b then _ else _) = _ => destruct b eqn:?
       | match ?l with [] => _ | _ :: _ => _ end = _ => destruct l eqn:?
       end; try discriminate.
  all: try (apply O1; eapply IH; [| |exact E]; [cbn; lia|discriminate]).
  all: try (apply O1; subst r; match goal with |- occurs _ (?d :: ?l) =>
       assert (OO : occurs W_stream l) by (eapply IH; [| |exact E]; [cbn; lia|discriminate]);
       destruct OO as (a & b & ->); exists (d :: a), b; auto end).
  - rewrite SW in E.
    apply O1. eapply IH; [| |exact E]; [cbn; lia|].
    repeat match goal with |- (if ?b then _ else _) <> _ => destruct b; try discriminate end.
  - inversion E.
    repeat match goal with H : (if ?b then _ else _) = _ |- _ => destruct b; try discriminate end.
  - inversion E.
    repeat match goal with H : (if ?b then _ else _) = _ |- _ => destruct b; try discriminate end.
Qed.

Lemma next_token_stream t i h j : next_token t i = (h, j, Some TStream) -> occurs W_stream t.
Proof.
  intros E. unfold next_token in E. apply ntok_stream in E; [|discriminate].
  destruct E as (a & b & E). exists (firstn i t ++ a), b. rewrite <- app_assoc, <- E. symmetry. apply firstn_skipn.
Qed.

Lemma items_noloop p isd t j1 : (j1 <= length t)%nat -> ~ In 93 t ->
  (forall h i, p (sub t h i) <> Loop \/ (length t <= length (sub t h i))%nat) ->
  forall n i f, (0 < i)%nat -> (0 < length t)%nat -> (length t - i <= n)%nat -> (n < f)%nat -> items_loop p isd t j1 f i <> Loop.
Proof.
  intros J N P. induction n; intros i f Hi Ht L F; (destruct f as [|f]; [lia|]); rewrite items_S.
  - replace (Nat.ltb i (j1 - 1)) with false by (symmetry; apply Nat.ltb_ge; lia). discriminate.
  - destruct (Nat.ltb i (j1 - 1)) eqn:E; [|discriminate]. apply Nat.ltb_lt in E.
    destruct (next_token t i) as [[h i'] tk] eqn:T.
    destruct (next_token_ge _ _ _ _ _ T). pose proof (next_token_le _ _ _ _ _ T).
    assert (A : (i < i')%nat).
    { eapply next_token_progress; [| |exact T]; [lia|]. intros Q. apply N. rewrite <- Q. apply nth_In. lia. }
    assert (Q : items_loop p isd t j1 f i' <> Loop) by (apply IHn; lia).
    assert (PP : p (sub t h i') <> Loop).
    { destruct (P h i'); auto. pose proof (sub_length_le2 t h i'). lia. }
    destruct tk as [k|]; auto.
    assert (D : match k with TDict | TArray => p (sub t h i') | _ => dedicated_type (sub t h i') (Some k) end <> Loop).
    { destruct k; auto using dedicated_noloop. }
    destruct k; auto; destruct (isd && negb (Nat.ltb i' j1)); auto;
    match goal with |- bind ?x _ <> _ => destruct x; cbn [bind]; try congruence end;
    destruct (items_loop p isd t j1 f i'); cbn [bind]; congruence.
Qed.

Theorem parse_obj_terminates t : forall i, ~ In 93 t -> ~ occurs W_stream t -> parse_obj t i <> Loop.
Proof.
  unfold parse_obj. induction t as [t IH] using list_len_ind. intros i N S.
  rewrite pobj_S. destruct (next_token t i) as [[h1 j1] t1] eqn:N1.
  assert (P : forall h i, pobj (length t) (sub t h i) 0 <> Loop \/ (length t <= length (sub t h i))%nat).
  { intros h i0. destruct (Nat.ltb_spec (length (sub t h i0)) (length t)); [left|right; lia].
    rewrite (pobj_fuel _ 0 (length t) (Datatypes.S (length (sub t h i0)))) by lia.
    apply IH; auto.
    - intros I. apply N. eapply sub_incl; eauto.
    - intros O. apply S. eapply sub_occurs; eauto. }
  assert (LT : t1 <> None -> (i < length t)%nat).
  { intros NN. destruct (Nat.ltb_spec i (length t)); auto.
    unfold next_token in N1. rewrite skipn_all2 in N1 by lia. inversion N1; congruence. }
  assert (J : t1 <> None -> (j1 <= length t)%nat).
  { intros NN. specialize (LT NN). destruct (ntb _ _ _ _ _ N1 ltac:(lia)). tauto. }
  destruct t1 as [[]|]; try apply dedicated_noloop; try discriminate.
  - destruct (next_token t j1) as [[h2 j2] t2] eqn:N2.
    assert (K : (let* l := items_loop (fun s => pobj (length t) s 0) true t j1 (Datatypes.S (length t)) (i + 2) in
       let* l' := replace_ref l in let* d := pair_up [] (rev l') in Ok (PDict d)) <> Loop).
    { assert (I : items_loop (fun s => pobj (length t) s 0) true t j1 (Datatypes.S (length t)) (i + 2) <> Loop).
      { apply items_noloop with (n := length t); auto; try lia; [apply J; discriminate|]. specialize (LT ltac:(discriminate)); lia. }
      destruct (items_loop _ true t j1 _ _) as [l| |]; cbn [bind]; try congruence.
      pose proof (replace_ref_noloop l). destruct (replace_ref l) as [l'| |]; cbn [bind]; try congruence.
      pose proof (pair_up_noloop (rev l') []). destruct (pair_up [] (rev l')); cbn [bind]; congruence. }
    destruct t2 as [[]|]; auto. exfalso. apply S. eapply next_token_stream; eauto.
  - assert (I : items_loop (fun s => pobj (length t) s 0) false t j1 (Datatypes.S (length t)) (i + 1) <> Loop).
    { apply items_noloop with (n := length t); auto; try lia; [apply J; discriminate|]. specialize (LT ltac:(discriminate)); lia. }
    destruct (items_loop _ false t j1 _ _) as [l| |]; cbn [bind]; try congruence.
    pose proof (replace_ref_noloop l). destruct (replace_ref l) as [l'| |]; cbn [bind]; congruence.
  - destruct (stream_body (sub t h1 j1)); discriminate.
Qed.

End WithZlib.
