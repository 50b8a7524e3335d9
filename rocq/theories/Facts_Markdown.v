(* Proofs about markdown rendering *)
From Coq Require Import String ZifyBool ZifyNat.
From Verif Require Import PyBase Model_Objects Model_Filestruct Model_Markdown Spec_Markdown Facts_Base Facts_Revision Facts_Doc.

(* ---------- find ---------- *)
Lemma stands_iff p s k : stands p s k <-> (k <= length s)%nat /\ starts p (skipn k s) = true.
Proof.
  rewrite starts_iff. split.
  - intros (a & b & -> & L). split; [rewrite app_length; lia|]. exists b. rewrite <- L, skipn_app, skipn_all, Nat.sub_diag. reflexivity.
  - intros [L [b E]]. exists (firstn k s), b. rewrite <- E, firstn_skipn. split; [auto|]. rewrite firstn_length. lia.
Qed.
Lemma find_from_spec p s : forall i, match find_from p s i with
  | Some k => (i <= k <= i + length s)%nat /\ starts p (skipn (k - i) s) = true /\ (forall j, (i <= j < k)%nat -> starts p (skipn (j - i) s) = false)
  | None => forall j, (i <= j <= i + length s)%nat -> starts p (skipn (j - i) s) = false end.
Proof.
  induction s as [|c s IH]; intro i; cbn [find_from].
  - destruct (starts p []) eqn:E; [|intros j R; cbn [length] in R; replace (j - i)%nat with 0%nat by lia; auto].
    split; [lia|]. rewrite Nat.sub_diag. split; [auto|intros; lia].
  - destruct (starts p (c :: s)) eqn:E.
    + split; [lia|]. rewrite Nat.sub_diag. split; [auto|intros; lia].
    + specialize (IH (S i)). cbn [length]. destruct (find_from p s (S i)) as [k|].
      * destruct IH as (R & S1 & S2). split; [lia|]. replace (k - i)%nat with (S (k - S i)) by lia. split; [exact S1|].
        intros j J. destruct (Nat.eq_dec j i) as [->|NE]; [rewrite Nat.sub_diag; auto|]. replace (j - i)%nat with (S (j - S i)) by lia. apply S2. lia.
      * intros j J. destruct (Nat.eq_dec j i) as [->|NE]; [rewrite Nat.sub_diag; auto|]. replace (j - i)%nat with (S (j - S i)) by lia. apply IH. lia.
Qed.
Lemma find_spec p s i : match find p s i with
  | Some k => (i <= k <= length s)%nat /\ stands p s k /\ (forall j, (i <= j < k)%nat -> ~ stands p s j)
  | None => forall j, (i <= j)%nat -> ~ stands p s j end.
Proof.
  unfold find. destruct (Nat.ltb_spec (length s) i) as [L|L].
  - intros j J ST. apply stands_iff in ST as [ST _]. lia.
  - pose proof (find_from_spec p (skipn i s) i) as H. rewrite skipn_length in H.
    assert (SK : forall j, (i <= j)%nat -> skipn (j - i) (skipn i s) = skipn j s) by (intros j J; rewrite skipn_skipn; f_equal; lia).
    destruct (find_from p (skipn i s) i) as [k|].
    + destruct H as (R & S1 & S2). split; [lia|]. rewrite SK in S1 by lia. split; [apply stands_iff; split; [lia|auto]|].
      intros j J ST. apply stands_iff in ST as [_ ST]. specialize (S2 j J). rewrite SK in S2 by lia. congruence.
    + intros j J ST. apply stands_iff in ST as [R ST]. specialize (H j ltac:(lia)). rewrite SK in H by lia. congruence.
Qed.
Lemma zfind_spec p s i : 0 <= i -> (zfind p s i = -1 /\ forall j, i <= Z.of_nat j -> ~ stands p s j) \/
  exists k, zfind p s i = Z.of_nat k /\ i <= Z.of_nat k /\ stands p s k /\ forall j, i <= Z.of_nat j < Z.of_nat k -> ~ stands p s j.
Proof.
  intro I. unfold zfind. pose proof (find_spec p s (Z.to_nat i)) as H. destruct (find p s (Z.to_nat i)) as [k|].
  - right. exists k. destruct H as (R & S1 & S2). split; [auto|]. split; [lia|]. split; [auto|]. intros j J. apply S2. lia.
  - left. split; [auto|]. intros j J. apply H. lia.
Qed.
Lemma stands_range p s k : stands p s k -> (k + length p <= length s)%nat.
Proof. intros (a & b & -> & <-). rewrite !app_length. lia. Qed.

Lemma pyget_any {A} (l : list A) i : - Z.of_nat (length l) <= i < Z.of_nat (length l) -> exists x, pyget l i = Ok x.
Proof.
  intro R. unfold pyget. assert (exists k, pyidx l i = Some k /\ (k < length l)%nat) as (k & -> & K).
  { unfold pyidx. destruct (Z.ltb_spec i 0); [|eexists; split; [|]]; try (replace (0 <=? i) with true by lia); repeat match goal with |- context [if ?b then _ else _] => destruct b eqn:?; try lia end; eauto; try (eexists; split; [reflexivity|lia]); lia. }
  destruct (nth_error l k) eqn:E; [cbn; eauto|]. apply nth_error_None in E. lia.
Qed.

(* ---------- C56 ---------- *)
Lemma link_step fuel s i j acc f : 0 <= i -> zfind L_mid s i = Z.of_nat f -> stands L_mid s f -> i <= Z.of_nat f ->
  exists acc', link_loop (S fuel) s i j acc = link_loop fuel s (zfind L_close s (Z.of_nat f) + 1) (zfind L_close s (Z.of_nat f) + 1) acc'.
Proof.
  intros I E ST R. pose proof (stands_range _ _ _ ST) as RG. change (length L_mid) with 2%nat in RG.
  cbn [link_loop]. rewrite E. unfold blen. replace (i <? Z.of_nat (length s)) with true by lia. replace (Z.of_nat f =? -1) with false by lia.
  destruct (pyget_any s (zfind L_open s i + 1 - 2)) as [c C].
  { destruct (zfind_spec L_open s i I) as [[-> _]|(k & -> & K1 & K2 & _)]; [lia|]. apply stands_range in K2. lia. }
  rewrite C. cbn [bind]. eexists. reflexivity.
Qed.
Lemma link_ends s : closed_links s -> forall n i j acc, 0 <= i -> (Z.to_nat (blen s - i) < n)%nat -> exists out, forall fuel, (n <= fuel)%nat -> link_loop fuel s i j acc = Ok out.
Proof.
  intros CL. induction n as [|n IH]; intros i j acc I M; [lia|]. destruct (Z.ltb_spec i (blen s)) as [LT|GE].
  - destruct (zfind_spec L_mid s i I) as [[E _]|(f & E & R & ST & _)].
    + exists (acc ++ slice s j (blen s)). intros [|fuel] F; [lia|]. cbn [link_loop]. replace (i <? blen s) with true by lia. rewrite E. reflexivity.
    + destruct (zfind_spec L_close s (Z.of_nat f) ltac:(lia)) as [[_ NO]|(k & EK & RK & _)].
      { destruct (CL f ST) as (k & K1 & K2). exfalso. apply (NO k); [lia|exact K2]. }
      assert (LG : forall fuel, exists acc', link_loop (S fuel) s i j acc = link_loop fuel s (zfind L_close s (Z.of_nat f) + 1) (zfind L_close s (Z.of_nat f) + 1) acc') by (intro; eapply link_step; eauto).
      (* the accumulator does not depend on the fuel *)
      assert (exists acc', forall fuel, link_loop (S fuel) s i j acc = link_loop fuel s (Z.of_nat k + 1) (Z.of_nat k + 1) acc') as [acc' LS].
      { pose proof (stands_range _ _ _ ST) as RG. change (length L_mid) with 2%nat in RG.
        destruct (pyget_any s (zfind L_open s i + 1 - 2)) as [c C].
        { destruct (zfind_spec L_open s i I) as [[-> _]|(k' & -> & K1 & K2 & _)]; [lia|]. apply stands_range in K2. lia. }
        eexists. intro fuel. cbn [link_loop]. rewrite E. replace (i <? blen s) with true by lia. replace (Z.of_nat f =? -1) with false by lia. rewrite C. cbn [bind]. rewrite EK. reflexivity. }
      destruct (IH (Z.of_nat k + 1) (Z.of_nat k + 1) acc') as [out H]; [lia|lia|]. exists out. intros [|fuel] F; [lia|]. rewrite LS. apply H. lia.
  - exists (acc ++ slice s j (blen s)). intros [|fuel] F; [lia|]. cbn [link_loop]. replace (i <? blen s) with false by lia. reflexivity.
Qed.
Theorem link_terminates s : closed_links s -> exists out, forall fuel, (length s < fuel)%nat -> link fuel s = Ok out.
Proof. intro C. destruct (link_ends s C (S (length s)) 0 0 [] ltac:(lia)) as [out H]; [unfold blen; lia|]. exists out. intros fuel F. apply H. lia. Qed.
Theorem link_diverges s k : stands (B "](") s k -> (forall j, (k < j)%nat -> ~ stands (B ")") s j) -> forall fuel, link fuel s = Loop.
Proof.
  intros ST NO fuel. unfold link. assert (H : forall fuel i j acc, 0 <= i <= Z.of_nat k -> link_loop fuel s i j acc = Loop); [|apply H; lia].
  induction fuel0 as [|fu IH]; intros i j acc R; [reflexivity|].
  destruct (zfind_spec L_mid s i ltac:(lia)) as [[E N]|(f & E & RF & STF & _)]; [exfalso; apply (N k); [lia|exact ST]|].
  destruct (link_step fu s i j acc f) as [acc' ->]; auto; [lia|]. apply IH.
  destruct (zfind_spec L_close s (Z.of_nat f) ltac:(lia)) as [[-> _]|(c & -> & C1 & C2 & _)]; [lia|].
  destruct (le_lt_dec c k) as [LE|GT]; [|exfalso; apply (NO c GT C2)].
  assert (c <> k). { intros ->. apply stands_iff in ST as [_ A]. apply stands_iff in C2 as [_ C]. apply starts_iff in A as [x A]. apply starts_iff in C as [y C]. rewrite A in C. discriminate. }
  lia.
Qed.

(* ---------- C72 ---------- *)
Lemma stands_first c p s k : stands (c :: p) s k -> nth_error s k = Some c.
Proof. intros (a & b & -> & <-). rewrite nth_error_app2, Nat.sub_diag by lia. reflexivity. Qed.
Lemma zfind_first c p pre m post : ~ In c m -> zfind (c :: p) (pre ++ m ++ (c :: p) ++ post) (blen pre) = blen (pre ++ m).
Proof.
  intro N. set (s := pre ++ m ++ (c :: p) ++ post). assert (ST : stands (c :: p) s (length (pre ++ m))) by (exists (pre ++ m), post; split; [unfold s; now rewrite <- app_assoc|auto]).
  destruct (zfind_spec (c :: p) s (blen pre) ltac:(unfold blen; lia)) as [[_ H]|(k & E & R & SK & H)].
  - exfalso. apply (H (length (pre ++ m))); [unfold blen; rewrite app_length; lia|exact ST].
  - rewrite E. unfold blen in *. destruct (lt_eq_lt_dec k (length (pre ++ m))) as [[LT|EQ]|GT]; [|lia|].
    + exfalso. apply N. apply stands_first in SK. unfold s in SK. rewrite nth_error_app2 in SK by lia. rewrite app_length in LT. rewrite nth_error_app1 in SK by lia. eapply nth_error_In; eauto.
    + exfalso. apply (H (length (pre ++ m))); [rewrite app_length in *; lia|exact ST].
Qed.
Lemma zfind_none c p pre m : ~ In c m -> zfind (c :: p) (pre ++ m) (blen pre) = -1.
Proof.
  intro N. destruct (zfind_spec (c :: p) (pre ++ m) (blen pre) ltac:(unfold blen; lia)) as [[E _]|(k & E & R & SK & _)]; [auto|].
  exfalso. apply N. apply stands_first in SK. unfold blen in R. rewrite nth_error_app2 in SK by lia. eapply nth_error_In; eauto.
Qed.
Lemma bound_pos s k : 0 <= k <= blen s -> bound s k = Z.to_nat k.
Proof. unfold bound, blen. intro R. replace (k <? 0) with false by lia. lia. Qed.
Lemma slice_mid a b c i j : i = blen a -> j = blen (a ++ b) -> slice (a ++ b ++ c) i j = b.
Proof.
  intros -> ->. unfold slice. rewrite !bound_pos by (unfold blen; rewrite !app_length; lia). unfold blen, sub. rewrite app_length, !Nat2Z.id.
  rewrite skipn_app, skipn_all, Nat.sub_diag. cbn [app skipn]. replace (length a + length b - length a)%nat with (length b) by lia. rewrite firstn_app, Nat.sub_diag, firstn_all, firstn_O. apply app_nil_r.
Qed.
Lemma page_url_is u : page_url u = html_url u.
Proof.
  unfold page_url, html_url. change (B ".md") with L_md. change (B ".html") with L_html.
  assert (E1 : slice u (-3) (blen u) = skipn (length u - 3) u).
  { unfold slice, bound, blen, sub. change (-3 <? 0) with true. cbn iota. replace (Z.of_nat (length u) <? 0) with false by lia. rewrite Nat2Z.id, Nat.min_id. replace (Z.to_nat (-3 + Z.of_nat (length u))) with (length u - 3)%nat by lia.
    apply firstn_all2. rewrite skipn_length. lia. }
  assert (E2 : slice u 0 (-3) = firstn (length u - 3) u).
  { unfold slice, bound, blen, sub. change (-3 <? 0) with true. change (0 <? 0) with false. cbn iota. replace (Z.to_nat (-3 + Z.of_nat (length u))) with (length u - 3)%nat by lia. cbn [Z.to_nat Nat.min skipn]. now rewrite Nat.sub_0_r. }
  now rewrite E1, E2.
Qed.
Lemma pyget_at (a b : bytes) c i : i = blen a -> pyget (a ++ c :: b) i = Ok c.
Proof.
  intros ->. unfold blen, pyget, pyidx. rewrite app_length. cbn [length]. replace ((0 <=? Z.of_nat (length a)) && (Z.of_nat (length a) <? Z.of_nat (length a + S (length b)))) with true by lia.
  rewrite Nat2Z.id, nth_error_app2, Nat.sub_diag by lia. reflexivity.
Qed.
Lemma pyget_minus1 (a : bytes) c : pyget (a ++ [c]) (-1) = Ok c.
Proof. unfold pyget, pyidx. rewrite app_length. cbn [length]. replace ((0 <=? -1) && _) with false by lia. replace ((- Z.of_nat (length a + 1) <=? -1) && (-1 <? 0)) with true by lia.
  replace (Z.to_nat (-1 + Z.of_nat (length a + 1))) with (length a) by lia. rewrite nth_error_app2, Nat.sub_diag by lia. reflexivity. Qed.

Definition is_link (p : piece) : Prop := match p with Plain _ => False | _ => True end.
Lemma link_one fuel (pre t : bytes) p (post acc : bytes) : unbracketed t -> is_link p -> piece_ok p ->
  (match p with Link _ _ => (if t then if pre then last post 41 else last pre 0 else last t 0) <> 33 | _ => True end) ->
  link_loop (S fuel) (pre ++ t ++ source1 p ++ post) (blen pre) (blen pre) acc =
  link_loop fuel (pre ++ t ++ source1 p ++ post) (blen (pre ++ t ++ source1 p)) (blen (pre ++ t ++ source1 p)) (acc ++ t ++ html1 p).
Proof.
  intros [T1 T2] IL OK EX. set (s := pre ++ t ++ source1 p ++ post).
  assert (exists m txt url, (m = [] \/ m = [33]) /\ source1 p = m ++ [91] ++ txt ++ [93; 40] ++ url ++ [41] /\ ~ In 91 (t ++ m) /\ ~ In 93 (t ++ m ++ [91] ++ txt) /\ ~ In 41 ([93; 40] ++ url) /\
    (m = [33] -> p = Image txt url) /\ (m = [] -> p = Link txt url)) as (m & txt & url & M & E & N1 & N2 & N3 & PI & PL).
  { destruct p as [u|txt url|alt url]; [destruct IL|exists [], txt, url|exists [33], alt, url]; cbn in OK; destruct OK as [[O1 O2] O3]; (split; [auto|]); (split; [reflexivity|]);
      (split; [rewrite in_app_iff; cbn; intuition discriminate|]); (split; [rewrite !in_app_iff; cbn; intuition discriminate|]); (split; [cbn; intuition discriminate|]); split; intro Q; try discriminate; auto. }
  assert (Es : s = pre ++ (t ++ m ++ [91] ++ txt) ++ ([93; 40] ++ url ++ [41]) ++ post) by (unfold s; rewrite E, <- !app_assoc; reflexivity).
  assert (Ef : zfind L_mid s (blen pre) = blen (pre ++ t ++ m ++ [91] ++ txt)).
  { rewrite Es. change L_mid with [93; 40]. replace (([93; 40] ++ url ++ [41]) ++ post) with ([93; 40] ++ (url ++ [41] ++ post)) by (rewrite <- !app_assoc; reflexivity). apply zfind_first. auto. }
  assert (Eb : zfind L_open s (blen pre) = blen (pre ++ t ++ m)).
  { unfold s. rewrite E. replace (pre ++ t ++ (m ++ [91] ++ txt ++ [93; 40] ++ url ++ [41]) ++ post) with (pre ++ (t ++ m) ++ [91] ++ (txt ++ [93; 40] ++ url ++ [41]) ++ post) by (rewrite <- !app_assoc; reflexivity). apply zfind_first. auto. }
  assert (Ep : zfind L_close s (blen (pre ++ t ++ m ++ [91] ++ txt)) = blen (pre ++ t ++ m ++ [91] ++ txt ++ [93; 40] ++ url)).
  { unfold s. rewrite E. replace (pre ++ t ++ (m ++ [91] ++ txt ++ [93; 40] ++ url ++ [41]) ++ post) with ((pre ++ t ++ m ++ [91] ++ txt) ++ ([93; 40] ++ url) ++ [41] ++ post) by (rewrite <- !app_assoc; reflexivity).
    change L_close with [41]; rewrite (zfind_first 41 [] (pre ++ t ++ m ++ [91] ++ txt)) by auto. f_equal. rewrite <- !app_assoc. reflexivity. }
  assert (LT : blen pre <? blen s = true) by (rewrite Es; unfold blen; rewrite !app_length; cbn [length]; lia).
  assert (P2 : blen (pre ++ t ++ m ++ [91] ++ txt ++ [93; 40] ++ url) + 1 = blen (pre ++ t ++ source1 p)) by (rewrite E; unfold blen; rewrite !app_length; cbn [length]; lia).
  assert (U : slice s (blen (pre ++ t ++ m ++ [91] ++ txt) + 2) (blen (pre ++ t ++ source1 p) - 1) = url).
  { replace s with ((pre ++ t ++ m ++ [91] ++ txt ++ [93; 40]) ++ url ++ [41] ++ post) by (rewrite Es, <- !app_assoc; reflexivity). apply slice_mid; rewrite ?E; unfold blen; rewrite !app_length; cbn [length]; lia. }
  assert (X : slice s (blen (pre ++ t ++ m) + 1) (blen (pre ++ t ++ m ++ [91] ++ txt)) = txt).
  { replace s with ((pre ++ t ++ m ++ [91]) ++ txt ++ [93; 40] ++ url ++ [41] ++ post) by (rewrite Es, <- !app_assoc; reflexivity). apply slice_mid; unfold blen; rewrite !app_length; cbn [length]; lia. }
  cbn [link_loop]. rewrite LT, Ef. replace (blen _ =? -1) with false by (unfold blen; lia). rewrite Eb, Ep, P2, U, X.
  destruct M as [-> | ->].
  - specialize (PL eq_refl). subst p. cbn [app] in Es.
    assert (exists c, pyget s (blen (pre ++ t ++ []) + 1 - 2) = Ok c /\ c <> 33) as (c & -> & NC).
    { rewrite app_nil_r. destruct t as [|t0 tr].
      - destruct pre as [|q0 pr].
        + exists (last post 41). split; [|exact EX]. change (blen ([] ++ []) + 1 - 2) with (-1). rewrite Es. destruct post as [|y yr _] using rev_ind.
          * rewrite app_nil_r. cbn [app last]. change (91 :: txt ++ 93 :: 40 :: url ++ [41]) with ([91] ++ txt ++ [93; 40] ++ url ++ [41]). rewrite !app_assoc. apply pyget_minus1.
          * rewrite last_last. replace ([] ++ ([] ++ 91 :: txt) ++ 93 :: 40 :: (url ++ [41]) ++ yr ++ [y]) with (([91] ++ txt ++ [93; 40] ++ url ++ [41] ++ yr) ++ [y]) by (cbn [app]; rewrite <- !app_assoc; cbn [app]; rewrite <- !app_assoc; reflexivity). apply pyget_minus1.
        + exists (last (q0 :: pr) 0). split; [|exact EX]. destruct (exists_last (l := q0 :: pr)) as (y & z & EY); [discriminate|]. rewrite EY in *. rewrite last_last. rewrite Es, <- !app_assoc. cbn [app]. apply pyget_at. unfold blen. rewrite !app_length. cbn [length]. lia.
      - exists (last (t0 :: tr) 0). split; [|exact EX]. destruct (exists_last (l := t0 :: tr)) as (y & z & EY); [discriminate|]. rewrite EY in *. rewrite last_last.
        replace s with ((pre ++ y) ++ z :: ((91 :: txt) ++ ([93; 40] ++ url ++ [41]) ++ post)) by (rewrite Es, <- !app_assoc; reflexivity). apply pyget_at. unfold blen. rewrite !app_length. cbn [length]. lia. }
    cbn [bind]. replace (c =? 33) with false by lia.
    assert (T : slice s (blen pre) (blen (pre ++ t ++ []) + 1 - 1) = t).
    { replace s with (pre ++ t ++ ([91] ++ txt) ++ ([93; 40] ++ url ++ [41]) ++ post) by (rewrite Es, <- !app_assoc; reflexivity). apply slice_mid; auto. unfold blen. rewrite !app_length. cbn [length]. lia. }
    rewrite T, page_url_is. reflexivity.
  - specialize (PI eq_refl). subst p.
    assert (C : pyget s (blen (pre ++ t ++ [33]) + 1 - 2) = Ok 33).
    { replace s with ((pre ++ t) ++ 33 :: ([91] ++ txt) ++ ([93; 40] ++ url ++ [41]) ++ post) by (rewrite Es, <- !app_assoc; reflexivity). apply pyget_at. unfold blen. rewrite !app_length. cbn [length]. lia. }
    rewrite C. cbn [bind]. change (33 =? 33) with true. cbn iota.
    assert (T : slice s (blen pre) (blen (pre ++ t ++ [33]) + 1 - 2) = t).
    { replace s with (pre ++ t ++ ([33] ++ [91] ++ txt) ++ ([93; 40] ++ url ++ [41]) ++ post) by (rewrite Es, <- !app_assoc; reflexivity). apply slice_mid; auto. unfold blen. rewrite !app_length. cbn [length]. lia. }
    rewrite T. reflexivity.
Qed.

Lemma link_done fuel s acc : link_loop (S fuel) s (blen s) (blen s) acc = Ok acc.
Proof. cbn [link_loop]. replace (blen s <? blen s) with false by lia. f_equal. replace (slice s (blen s) (blen s)) with (@nil Z); [apply app_nil_r|]. unfold slice, sub. now rewrite Nat.sub_diag. Qed.

Lemma link_pieces n : forall l fuel (pre acc : bytes), (length l <= n)%nat -> (length l < fuel)%nat -> Forall piece_ok l -> alternate l ->
  (starts_link l = true -> (if pre then last (source l) 0 else last pre 0) <> 33) ->
  link_loop fuel (pre ++ source l) (blen pre) (blen pre) acc = Ok (acc ++ html l).
Proof.
  induction n as [|n IH]; intros l fuel pre acc LN LF OK AL ST.
  { destruct l; [|cbn in LN; lia]. destruct fuel; [cbn in LF; lia|]. cbn [source html flat_map]. rewrite !app_nil_r. apply link_done. }
  destruct l as [|p r]; [destruct fuel; [cbn in LF; lia|]; cbn [source html flat_map]; rewrite !app_nil_r; apply link_done|].
  inversion OK as [|? ? O1 O2]; subst. destruct fuel as [|fuel]; [cbn in LF; lia|]. cbn [length] in *.
  assert (NXT : forall t q r' acc', is_link q -> piece_ok q -> Forall piece_ok r' -> alternate r' -> (length r' <= n)%nat -> (length r' < fuel)%nat -> unbracketed t ->
     (match q with Link _ _ => (if t then if pre then last (source r') 41 else last pre 0 else last t 0) <> 33 | _ => True end) ->
     link_loop (S fuel) (pre ++ t ++ source1 q ++ source r') (blen pre) (blen pre) acc' = Ok (acc' ++ t ++ html1 q ++ html r')).
  { intros t q r' acc' IQ OQ OR AR L1 L2 UT C. rewrite link_one; auto.
    replace (pre ++ t ++ source1 q ++ source r') with ((pre ++ t ++ source1 q) ++ source r') by (rewrite <- !app_assoc; reflexivity).
    rewrite IH; auto.
    - f_equal. rewrite <- !app_assoc. reflexivity.
    - intros _. assert (L41 : last (pre ++ t ++ source1 q) 0 = 41).
      { destruct q as [u|a b|a b]; [destruct IQ| |]; cbn [source1]; rewrite !app_assoc; change (B ")") with [41]; apply last_last. }
      destruct (pre ++ t ++ source1 q) as [|x y] eqn:EE; [|rewrite L41; lia]. cbn in L41. lia. }
  destruct p as [t|txt url|alt url].
  - destruct O1 as [NT UT]. destruct r as [|q r'].
    + cbn [source html flat_map source1 html1]. rewrite !app_nil_r. cbn [link_loop]. destruct UT as [U1 U2].
      replace (blen pre <? blen (pre ++ t)) with true by (destruct t; [congruence|]; unfold blen; rewrite app_length; cbn [length]; lia).
      rewrite (zfind_none 93 [40]) by auto. change (-1 =? -1) with true. cbn iota. f_equal. f_equal.
      rewrite <- (app_nil_r t) at 1. apply slice_mid; [auto|]. reflexivity.
    + inversion O2 as [|? ? Oq Or]; subst. cbn [length] in *. destruct q as [t'|txt url|alt url].
      * destruct AL.
      * destruct AL as [A1 A2]. change (source (Plain t :: Link txt url :: r')) with (t ++ source1 (Link txt url) ++ source r'). change (html (Plain t :: Link txt url :: r')) with (t ++ html1 (Link txt url) ++ html r').
        apply NXT; auto; try lia; [exact Logic.I|]. destruct t; [congruence|exact A1].
      * change (source (Plain t :: Image alt url :: r')) with (t ++ source1 (Image alt url) ++ source r'). change (html (Plain t :: Image alt url :: r')) with (t ++ html1 (Image alt url) ++ html r').
        apply NXT; auto; try lia; exact Logic.I.
  - specialize (NXT [] (Link txt url) r acc). cbn [app] in NXT. apply NXT; auto; try lia; [exact Logic.I|split; intros []|].
    specialize (ST eq_refl). destruct pre; [|exact ST]. change (source (Link txt url :: r)) with (source1 (Link txt url) ++ source r) in ST. destruct (source r) as [|x y] eqn:ES; [cbn; lia|].
    destruct (exists_last (l := x :: y)) as (a & z & EZ); [discriminate|]. rewrite EZ in *. rewrite last_last. rewrite app_assoc, last_last in ST. exact ST.
  - specialize (NXT [] (Image alt url) r acc). cbn [app] in NXT. apply NXT; auto; try lia; [exact Logic.I|split; intros []].
Qed.
Theorem links_in_place l fuel : Forall piece_ok l -> alternate l -> (starts_link l = true -> last (source l) 0 <> 33) -> (length l < fuel)%nat ->
  link fuel (source l) = Ok (html l).
Proof. intros OK AL ST F. exact (link_pieces (length l) l fuel [] [] (le_n _) F OK AL ST). Qed.

(* ---------- C73 ---------- *)
Lemma nth_at (a b : bytes) c : nth (length a) (a ++ c :: b) 0 = c.
Proof. rewrite app_nth2, Nat.sub_diag by lia. reflexivity. Qed.
Definition after_turn (s : bytes) (st1 : sstate) : sstate :=
  let i := S (ss_i st1) in
  mk_ss i (ss_cur st1) (ss_accu st1) (ss_search st1) (if Nat.eqb i (length s) then ss_res st1 ++ sub s (ss_cur st1) i else ss_res st1).
Lemma style_next fuel s st : (ss_i st < length s)%nat -> style_loop (S fuel) s st = style_loop fuel s (after_turn s (style_turn s st)).
Proof. intro L. cbn [style_loop]. replace (ss_i st <? length s)%nat with true by (symmetry; apply Nat.ltb_lt; auto). reflexivity. Qed.
Lemma style_stop fuel s st : (length s <= ss_i st)%nat -> style_loop fuel s st = ss_res st.
Proof. intro L. destruct fuel; [reflexivity|]. cbn [style_loop]. replace (ss_i st <? length s)%nat with false by (symmetry; apply Nat.ltb_ge; auto). reflexivity. Qed.

Lemma style_words t : forall fuel pre rest cur res, Forall (fun c => c <> 96 /\ c <> 42 /\ c <> 95) t -> rest <> [] ->
  style_loop (length t + fuel) (pre ++ t ++ rest) (mk_ss (length pre) cur false None res) =
  style_loop fuel (pre ++ t ++ rest) (mk_ss (length (pre ++ t)) cur false None res).
Proof.
  induction t as [|c t IH]; intros fuel pre rest cur res W NR; [rewrite app_nil_r; reflexivity|].
  inversion W as [|? ? (W1 & W2 & W3) W']; subst. cbn [length Nat.add]. set (s := pre ++ (c :: t) ++ rest).
  rewrite style_next by (unfold s; cbn [ss_i]; rewrite !app_length; cbn [length]; lia).
  assert (T : style_turn s (mk_ss (length pre) cur false None res) = mk_ss (length pre) cur false None res).
  { unfold style_turn, s. cbn [ss_i ss_search]. cbn [app]. rewrite nth_at. replace (c =? 96) with false by lia. replace (c =? 42) with false by lia. replace (c =? 95) with false by lia. rewrite andb_false_r. reflexivity. }
  rewrite T. unfold after_turn. cbn [ss_i ss_cur ss_accu ss_search ss_res].
  replace (S (length pre) =? length s)%nat with false by (symmetry; apply Nat.eqb_neq; unfold s; destruct rest; [congruence|]; rewrite !app_length; cbn [length]; lia).
  replace s with ((pre ++ [c]) ++ t ++ rest) by (unfold s; rewrite <- !app_assoc; reflexivity). replace (S (length pre)) with (length (pre ++ [c])) by (rewrite app_length; cbn [length]; lia).
  rewrite IH by auto. f_equal. f_equal. rewrite <- !app_assoc. reflexivity.
Qed.
Lemma style_last_words t fuel pre cur res : t <> [] -> (cur <= length pre)%nat -> Forall (fun c => c <> 96 /\ c <> 42 /\ c <> 95) t -> (length t <= fuel)%nat ->
  style_loop fuel (pre ++ t) (mk_ss (length pre) cur false None res) = res ++ sub (pre ++ t) cur (length (pre ++ t)).
Proof.
  intros NT LC W F. destruct (exists_last NT) as (a & c & ->). apply Forall_app in W as [W1 W2]. inversion W2 as [|? ? (H1 & H2 & H3) _]; subst.
  rewrite app_length in F. cbn [length] in F. replace fuel with (length a + S (fuel - length a - 1))%nat by lia. rewrite style_words by (auto; discriminate).
  set (s := pre ++ a ++ [c]). rewrite style_next by (unfold s; cbn [ss_i]; rewrite !app_length; cbn [length]; lia).
  assert (T : style_turn s (mk_ss (length (pre ++ a)) cur false None res) = mk_ss (length (pre ++ a)) cur false None res).
  { unfold style_turn, s. cbn [ss_i ss_search]. rewrite app_assoc, nth_at. replace (c =? 96) with false by lia. replace (c =? 42) with false by lia. replace (c =? 95) with false by lia. rewrite andb_false_r. reflexivity. }
  rewrite T. unfold after_turn. cbn [ss_i ss_cur ss_accu ss_search ss_res].
  assert (L : S (length (pre ++ a)) = length s) by (unfold s; rewrite !app_length; cbn [length]; lia). rewrite L, Nat.eqb_refl. rewrite style_stop by (cbn [ss_i]; lia). reflexivity.
Qed.
Lemma style_code_inner t : forall fuel pre rest cur res, Forall (fun c => c <> 96) t -> rest <> [] ->
  style_loop (length t + fuel) (pre ++ t ++ rest) (mk_ss (length pre) cur false (Some [96]) res) =
  style_loop fuel (pre ++ t ++ rest) (mk_ss (length (pre ++ t)) cur false (Some [96]) res).
Proof.
  induction t as [|c t IH]; intros fuel pre rest cur res W NR; [rewrite app_nil_r; reflexivity|].
  inversion W as [|? ? W1 W']; subst. cbn [length Nat.add]. set (s := pre ++ (c :: t) ++ rest).
  rewrite style_next by (unfold s; cbn [ss_i]; rewrite !app_length; cbn [length]; lia).
  assert (T : style_turn s (mk_ss (length pre) cur false (Some [96]) res) = mk_ss (length pre) cur false (Some [96]) res).
  { unfold style_turn, s. cbn [ss_i ss_search]. cbn [app]. rewrite nth_at. change (beqb [96] [96]) with true. cbn iota. replace (c =? 96) with false by lia. reflexivity. }
  rewrite T. unfold after_turn. cbn [ss_i ss_cur ss_accu ss_search ss_res].
  replace (S (length pre) =? length s)%nat with false by (symmetry; apply Nat.eqb_neq; unfold s; destruct rest; [congruence|]; rewrite !app_length; cbn [length]; lia).
  replace s with ((pre ++ [c]) ++ t ++ rest) by (unfold s; rewrite <- !app_assoc; reflexivity). replace (S (length pre)) with (length (pre ++ [c])) by (rewrite app_length; cbn [length]; lia).
  rewrite IH by auto. f_equal. f_equal. rewrite <- !app_assoc. reflexivity.
Qed.
Lemma sub_mid (a b c : bytes) : sub (a ++ b ++ c) (length a) (length (a ++ b)) = b.
Proof. unfold sub. rewrite app_length, skipn_app, skipn_all, Nat.sub_diag. cbn [app skipn]. replace (length a + length b - length a)%nat with (length b) by lia. rewrite firstn_app, Nat.sub_diag, firstn_all, firstn_O. apply app_nil_r. Qed.
Lemma style_code t fuel pre rest cur res : Forall (fun c => c <> 96) t -> (cur <= length pre)%nat ->
  style_loop (length t + S (S fuel)) (pre ++ ([96] ++ t ++ [96]) ++ rest) (mk_ss (length pre) cur false None res) =
  style_loop fuel (pre ++ ([96] ++ t ++ [96]) ++ rest) (mk_ss (length (pre ++ [96] ++ t ++ [96])) (length (pre ++ [96] ++ t ++ [96])) false None
    (res ++ sub (pre ++ ([96] ++ t ++ [96]) ++ rest) cur (length pre) ++ T_code ++ t ++ T_endcode)).
Proof.
  intros W LC. set (s := pre ++ ([96] ++ t ++ [96]) ++ rest). replace (length t + S (S fuel))%nat with (S (length t + S fuel)) by lia.
  assert (LS : length s = (length pre + length t + 2 + length rest)%nat) by (unfold s; rewrite !app_length; cbn [length]; lia).
  rewrite style_next by (cbn [ss_i]; lia).
  assert (T : style_turn s (mk_ss (length pre) cur false None res) = mk_ss (length pre) (length pre) false (Some [96]) (res ++ sub s cur (length pre))).
  { unfold style_turn. cbn [ss_i ss_search ss_cur ss_res ss_accu]. unfold s at 1. cbn [app]. rewrite nth_at. reflexivity. }
  rewrite T. unfold after_turn. cbn [ss_i ss_cur ss_accu ss_search ss_res].
  replace (S (length pre) =? length s)%nat with false by (symmetry; apply Nat.eqb_neq; lia).
  assert (E1 : s = (pre ++ [96]) ++ t ++ ([96] ++ rest)) by (unfold s; rewrite <- !app_assoc; reflexivity).
  replace (S (length pre)) with (length (pre ++ [96])) by (rewrite app_length; cbn [length]; lia).
  set (r0 := res ++ sub s cur (length pre)). assert (IN := style_code_inner t (S fuel) (pre ++ [96]) ([96] ++ rest) (length pre) r0 W ltac:(discriminate)). rewrite <- E1 in IN. rewrite IN. clear IN.
  rewrite style_next by (cbn [ss_i]; rewrite !app_length; cbn [length]; lia).
  assert (T2 : style_turn s (mk_ss (length ((pre ++ [96]) ++ t)) (length pre) false (Some [96]) r0) =
     mk_ss (length ((pre ++ [96]) ++ t)) (S (length ((pre ++ [96]) ++ t))) false None (r0 ++ T_code ++ t ++ T_endcode)).
  { unfold style_turn. cbn [ss_i ss_search ss_cur ss_res ss_accu]. change (beqb [96] [96]) with true. cbn iota.
    replace (nth (length ((pre ++ [96]) ++ t)) s 0) with 96 by (rewrite E1, app_assoc; symmetry; apply nth_at). change (96 =? 96) with true. cbn iota.
    replace (length pre + 1)%nat with (length (pre ++ [96])) by (rewrite app_length; cbn [length]; lia). rewrite E1 at 1. rewrite sub_mid. reflexivity. }
  rewrite T2. unfold after_turn. cbn [ss_i ss_cur ss_accu ss_search ss_res].
  assert (EL : S (length ((pre ++ [96]) ++ t)) = length (pre ++ [96] ++ t ++ [96])) by (rewrite !app_length; cbn [length]; lia). rewrite EL.
  set (k := length (pre ++ [96] ++ t ++ [96])).
  assert (ER : (if Nat.eqb k (length s) then (r0 ++ T_code ++ t ++ T_endcode) ++ sub s k k else r0 ++ T_code ++ t ++ T_endcode) = r0 ++ T_code ++ t ++ T_endcode).
  { destruct (Nat.eqb _ _); [|auto]. unfold sub at 1. rewrite Nat.sub_diag, firstn_O. apply app_nil_r. }
  refine (eq_trans (f_equal (fun x => style_loop fuel s (mk_ss k k false None x)) ER) _). unfold r0. rewrite <- !app_assoc. reflexivity.
Qed.

Lemma sub_app_same (a b : bytes) i j : (j <= length a)%nat -> sub (a ++ b) i j = sub a i j.
Proof.
  intro L. unfold sub. destruct (le_lt_dec i (length a)) as [LE|GT].
  - rewrite skipn_app, firstn_app, skipn_length. replace (j - i - (length a - i))%nat with 0%nat by lia. rewrite firstn_O. apply app_nil_r.
  - replace (j - i)%nat with 0%nat by lia. reflexivity.
Qed.
Lemma sub_extend (a b : bytes) i : (i <= length a)%nat -> sub (a ++ b) i (length (a ++ b)) = sub (a ++ b) i (length a) ++ b.
Proof.
  intro L. unfold sub. rewrite skipn_app. replace (i - length a)%nat with 0%nat by lia. cbn [skipn]. rewrite app_length.
  rewrite (firstn_all2 (n := (length a + length b - i)%nat)) by (rewrite app_length, skipn_length; lia). rewrite firstn_app, skipn_length.
  replace (length a - i - (length a - i))%nat with 0%nat by lia. rewrite firstn_O, app_nil_r. rewrite (firstn_all2 (n := (length a - i)%nat)) by (rewrite skipn_length; lia). reflexivity.
Qed.
Definition spans_source (l : list span) : bytes := flat_map span_source l.
Definition spans_html (l : list span) : bytes := flat_map span_html l.
Lemma style_spans l : forall fuel pre cur res, Forall span_ok l -> (cur <= length pre)%nat -> (length (spans_source l) <= fuel)%nat ->
  (spans_source l = [] -> cur = length pre) ->
  style_loop fuel (pre ++ spans_source l) (mk_ss (length pre) cur false None res) = res ++ sub pre cur (length pre) ++ spans_html l.
Proof.
  induction l as [|p l IH]; intros fuel pre cur res OK LC F E0.
  - cbn [spans_source spans_html flat_map]. rewrite app_nil_r, style_stop by (cbn; lia). cbn [ss_res]. rewrite (E0 eq_refl). unfold sub. rewrite Nat.sub_diag, firstn_O. now rewrite !app_nil_r.
  - inversion OK as [|? ? O1 O2]; subst. change (spans_source (p :: l)) with (span_source p ++ spans_source l) in *. change (spans_html (p :: l)) with (span_html p ++ spans_html l). rewrite app_length in F.
    destruct p as [t|t]; cbn [span_source span_html span_ok] in *.
    + destruct (spans_source l) as [|x y] eqn:EL.
      * rewrite app_nil_r in *. assert (EH : spans_html l = []). { clear - EL. induction l as [|[u|u] l IH]; [auto| |discriminate]. cbn in EL. apply app_eq_nil in EL as [-> EL]. cbn. auto. }
        rewrite EH, app_nil_r. destruct t as [|c t'].
        -- rewrite app_nil_r, style_stop by (cbn; lia). cbn [ss_res]. rewrite (E0 eq_refl). unfold sub. rewrite Nat.sub_diag, firstn_O. now rewrite !app_nil_r.
        -- rewrite style_last_words by (try discriminate; try assumption; lia). rewrite sub_extend by auto. rewrite sub_app_same by auto. reflexivity.
      * replace fuel with (length t + (fuel - length t))%nat by lia. rewrite style_words by (auto; discriminate). rewrite app_assoc, IH.
        -- f_equal. rewrite sub_extend by auto. rewrite sub_app_same by auto. rewrite <- app_assoc. reflexivity.
        -- auto.
        -- rewrite app_length. lia.
        -- lia.
        -- discriminate.
    + change (B "`") with [96] in *. change (B "<code>") with T_code. change (B "</code>") with T_endcode. rewrite !app_length in F. cbn [length] in F.
      replace fuel with (length t + S (S (fuel - length t - 2)))%nat by lia. rewrite style_code by auto. rewrite app_assoc, IH; auto; [|lia].
      rewrite sub_app_same with (a := pre ++ [96] ++ t ++ [96]) by (rewrite app_length; lia). rewrite sub_app_same by auto.
      replace (sub _ (length (pre ++ [96] ++ t ++ [96])) (length (pre ++ [96] ++ t ++ [96]))) with (@nil Z) by (unfold sub; rewrite Nat.sub_diag; reflexivity).
      cbn [app]. rewrite <- !app_assoc. reflexivity.
Qed.
Theorem code_in_place l : Forall span_ok l -> style (flat_map span_source l) = flat_map span_html l.
Proof. intro OK. unfold style. rewrite (style_spans l _ [] 0 [] OK); auto. Qed.

(* ---------- C75 ---------- *)
Lemma code_lines_ge f l : forall i, (i <= fst (code_lines f l i))%nat.
Proof. induction l as [|a l IH]; intro i; cbn [code_lines]; [cbn; lia|]. destruct (if f then _ else _); [|cbn; lia]. specialize (IH (S i)). destruct (code_lines f l (S i)). cbn [fst] in *. lia. Qed.
Lemma list_lines_ge o r l : forall i, (i <= fst (list_lines o r l i))%nat.
Proof. induction l as [|a l IH]; intro i; cbn [list_lines]; [cbn; lia|]. destruct (indentation_and_first_token _). destruct (_ && _); [|cbn; lia]. specialize (IH (S i)). destruct (list_lines o r l (S i)). cbn [fst] in *. lia. Qed.
Lemma table_lines_ge r l : forall i, table_lines r l i <> Loop /\ forall k x, table_lines r l i = Ok (k, x) -> (i <= k)%nat.
Proof.
  induction l as [|a l IH]; intro i; cbn [table_lines]; [split; [discriminate|]; intros k x [= <- <-]; lia|].
  destruct (indentation_and_first_token _). destruct (_ && _); [|split; [discriminate|]; intros k x [= <- <-]; lia].
  specialize (IH (S i)) as [I1 I2]. unfold dashes. destruct (table_cells _ _ _) as [|[?|? [|[?|? ?] ?]] ?]; cbn [bind]; try (split; [discriminate|]; discriminate).
  destruct (table_lines r l (S i)) as [(k', x')|e|]; cbn [bind]; try (split; [discriminate|]; discriminate); [|congruence].
  split; [discriminate|]. intros k x [= <- <-]. specialize (I2 _ _ eq_refl). lia.
Qed.
Lemma parse_table_ge l i : parse_table l i <> Loop /\ forall k x, parse_table l i = Ok (k, x) -> (i <= k)%nat.
Proof.
  unfold parse_table. destruct (indentation_and_first_token (strip_cr _)). destruct (_ && _); [|split; [discriminate|]; intros k x [= <- <-]; lia].
  destruct (table_lines_ge (fst (indentation_and_first_token (line_at l i))) (skipn (S i) l) (S i)) as [I1 I2].
  destruct (table_lines _ _ _) as [(k', x')|e|]; cbn [bind]; try (split; [discriminate|]; discriminate); [|congruence].
  split; [discriminate|]. intros k x [= <- <-]. specialize (I2 _ _ eq_refl). lia.
Qed.
Definition done_from (i : nat) (r : res (list mdnode * nat)) : Prop := r <> Loop /\ forall bl k, r = Ok (bl, k) -> (i <= k)%nat.
Lemma done_weaken i j r : (i <= j)%nat -> done_from j r -> done_from i r.
Proof. intros L (A & C). split; [auto|]. intros bl k E. specialize (C _ _ E). lia. Qed.
(* does the line at i open a quotation for start? *)
Definition opens_quote (lines : list bytes) (i start : nat) : bool :=
  let (indent, bs) := indentation_and_first_token (strip_cr (line_at lines i)) in
  negb (truthy_b bs) && Nat.ltb 0 indent && Nat.ltb start (indent + 1).
Lemma md_done lines : forall n i fuel start b blocks, (length lines - i <= n)%nat ->
  (2 * n + (if opens_quote lines i start then 2 else 1) <= fuel)%nat -> done_from i (md_loop fuel lines start i b blocks).
Proof.
  induction n as [n IHn] using lt_wf_ind. intros i fuel start b blocks Ln F.
  destruct fuel as [|fuel]; [destruct (opens_quote _ _ _); lia|]. cbn [md_loop].
  destruct (i <? length lines)%nat eqn:EI; [apply Nat.ltb_lt in EI|split; [discriminate|]; intros bl k [= <- <-]; lia].
  assert (NX : forall j st b' bl, (i < j)%nat -> done_from i (md_loop fuel lines st j b' bl)).
  { intros j st b' bl Lj. apply done_weaken with j; [lia|]. apply (IHn (n - 1)%nat); [lia|lia|]. destruct (opens_quote lines j st), (opens_quote lines i start); lia. }
  unfold opens_quote in F. destruct (indentation_and_first_token (strip_cr (line_at lines i))) as (indent, bs) eqn:ETOK.
  destruct (indent + 1 <? start)%nat; [split; [discriminate|]; intros bl k [= <- <-]; lia|].
  destruct (negb (truthy_b bs) && (0 <? indent)%nat && (start <? indent + 1)%nat) eqn:EQ.
  { assert (SB : done_from i (md_loop fuel lines (indent + 1) i [] [])).
    { destruct fuel as [|f]; [lia|]. cbn [md_loop]. replace (i <? length lines)%nat with true by (symmetry; apply Nat.ltb_lt; lia).
      rewrite ETOK. rewrite !Nat.ltb_irrefl, !andb_false_r. destruct bs as [|c0 bs]; [|discriminate]. cbn [starts truthy_b andb is_bullet ends_dot].
      assert (NX2 : forall b' bl, done_from i (md_loop f lines (indent + 1) (i + 1) b' bl)).
      { intros b' bl. apply done_weaken with (i + 1)%nat; [lia|]. apply (IHn (n - 1)%nat); [lia|lia|]. destruct (opens_quote lines (i + 1) (indent + 1)); lia. }
      change (beqb [] [124]) with false. change (is_bullet []) with false. cbn iota.
      destruct (truthy_b _ && _).
      - destruct (parse_title_under lines i). apply NX2.
      - apply NX2. }
    destruct SB as (S1 & S2). destruct (md_loop fuel lines (indent + 1) i [] []) as [(sb, k)|e|]; cbn [bind]; [|split; [discriminate|]; discriminate|congruence].
    specialize (S2 _ _ eq_refl). apply NX. lia. }
  destruct (starts [96; 96; 96] bs).
  { unfold parse_code_block. assert (G := code_lines_ge true (skipn (i + 1) lines) (i + 1)). destruct (code_lines _ _ _) as (k, r). cbn [fst] in G. apply NX. lia. }
  destruct (truthy_b bs && (4 <=? indent)%nat).
  { unfold parse_code_block. assert (G := code_lines_ge false (skipn i lines) i). destruct (code_lines _ _ _) as (k, r). cbn [fst] in G. apply NX. lia. }
  destruct (truthy_b _ && _). { destruct (parse_title_under lines i). apply NX. lia. }
  destruct (truthy_b bs && _). { destruct (parse_title_prefix lines i). apply NX. lia. }
  destruct (is_bullet bs).
  { unfold parse_list. assert (G := list_lines_ge false (fst (indentation_and_first_token (line_at lines i))) (skipn i lines) i). destruct (list_lines _ _ _ _) as (k, r). cbn [fst] in G. apply NX. lia. }
  destruct (ends_dot bs && _ && _).
  { unfold parse_list. assert (G := list_lines_ge true (fst (indentation_and_first_token (line_at lines i))) (skipn i lines) i). destruct (list_lines _ _ _ _) as (k, r). cbn [fst] in G. apply NX. lia. }
  destruct (beqb bs [124]).
  { destruct (parse_table_ge lines i) as (G1 & G2). destruct (parse_table lines i) as [(k, r)|e|]; cbn [bind]; [|split; [discriminate|]; discriminate|congruence]. specialize (G2 _ _ eq_refl). apply NX. lia. }
  destruct (match b with [] => false | _ => _ end); apply NX; lia.
Qed.
Lemma md_mono lines : forall fuel start i b blocks r, md_loop fuel lines start i b blocks = r -> r <> Loop ->
  forall fuel', (fuel <= fuel')%nat -> md_loop fuel' lines start i b blocks = r.
Proof.
  induction fuel as [|fuel IH]; intros start i b blocks r E NL fuel' L; [cbn in E; congruence|]. destruct fuel' as [|fuel']; [lia|]. assert (L' : (fuel <= fuel')%nat) by lia. cbn [md_loop] in *.
  destruct (i <? length lines)%nat; [|auto]. destruct (indentation_and_first_token _) as (indent, bs). destruct (_ <? start)%nat; [auto|].
  destruct (negb (truthy_b bs) && _ && _).
  { destruct (md_loop fuel lines (indent + 1) i [] []) as [(sb, k)|e|] eqn:ES; cbn [bind] in E; [| |congruence].
    - rewrite (IH _ _ _ _ _ ES ltac:(discriminate) _ L'). cbn [bind]. eapply IH; eauto.
    - rewrite (IH _ _ _ _ _ ES ltac:(discriminate) _ L'). auto. }
  destruct (starts _ bs). { destruct (parse_code_block _ _ _). eapply IH; eauto. }
  destruct (truthy_b bs && _). { destruct (parse_code_block _ _ _). eapply IH; eauto. }
  destruct (truthy_b _ && _). { destruct (parse_title_under _ _). eapply IH; eauto. }
  destruct (truthy_b bs && _). { destruct (parse_title_prefix _ _). eapply IH; eauto. }
  destruct (is_bullet bs). { destruct (parse_list _ _ _). eapply IH; eauto. }
  destruct (ends_dot bs && _ && _). { destruct (parse_list _ _ _). eapply IH; eauto. }
  destruct (beqb bs _). { destruct (parse_table _ _) as [(k, r1)|e|]; cbn [bind] in *; eauto. }
  destruct (match b with [] => false | _ => _ end); eapply IH; eauto.
Qed.
Theorem blocks_end lines : exists r, r <> Loop /\ forall fuel, (2 * length lines + 2 <= fuel)%nat -> parse_markdown fuel lines = r.
Proof.
  exists (parse_markdown (2 * length lines + 2) lines). unfold parse_markdown.
  destruct (md_done lines (length lines) 0 (2 * length lines + 2) 0 [] []) as (A & _); [lia|destruct (opens_quote _ _ _); lia|].
  split; [exact A|]. intros fuel L. eapply md_mono; eauto.
Qed.

(* ---------- C76 ---------- *)
Lemma lstrip_other set l : match l with c :: _ => inb c set = false | [] => True end -> lstrip set l = l.
Proof. destruct l as [|c l]; [auto|]. cbn [lstrip]. intros ->. reflexivity. Qed.
Lemma strip_cr_plain l : Forall (fun c => c <> 13) l -> strip_cr l = l.
Proof.
  intro F. unfold strip_cr, strip. assert (G : forall x, Forall (fun c => c <> 13) x -> lstrip [13] x = x).
  { intros x Fx. apply lstrip_other. destruct x as [|c x]; [auto|]. inversion Fx; subst. unfold inb. cbn [existsb]. replace (c =? 13) with false by lia. reflexivity. }
  rewrite !G; [apply rev_involutive|auto|]. apply Forall_rev. rewrite G; auto.
Qed.
Lemma last_skipn (l : bytes) k : skipn k l <> [] -> last (skipn k l) 0 = last l 0.
Proof.
  revert l. induction k as [|k IH]; intros l N; [auto|]. destruct l as [|c l]; [cbn in N; congruence|]. cbn [skipn] in *. rewrite IH by auto. destruct l; [rewrite skipn_nil in N; congruence|reflexivity].
Qed.
Lemma plain_turn fuel lines i b blocks l : (i < length lines)%nat -> line_at lines i = l -> plain_line l ->
  md_loop (S fuel) lines 0 i b blocks = md_loop fuel lines 0 (i + 1) (b ++ [l]) blocks.
Proof.
  intros LI EL (HL & LL & FL). cbn [md_loop]. replace (i <? length lines)%nat with true by (symmetry; apply Nat.ltb_lt; auto). rewrite EL.
  rewrite strip_cr_plain by (eapply Forall_impl; [|exact FL]; cbn; tauto). destruct l as [|c r]; [unfold letter in HL; cbn in HL; lia|]. cbn [hd] in HL.
  assert (NC : forall x, (x < 65 \/ 122 < x \/ 90 < x < 97) -> (c =? x) = false) by (unfold letter in HL; intros; lia).
  unfold indentation_and_first_token. cbn [indent_loop]. rewrite !NC by lia. cbn [skipn word]. rewrite NC by lia. cbn iota.
  cbn [truthy_b negb andb Nat.ltb Nat.leb Nat.add]. replace (starts [96; 96; 96] (c :: word r)) with false by (unfold starts; cbn [length firstn beqb]; rewrite NC by lia; reflexivity). cbn iota.
  unfold all_eq. cbn [forallb]. rewrite !(Z.eqb_sym _ c), !NC by lia. cbn [andb orb].
  unfold is_bullet. cbn [beqb]. rewrite !NC by lia. cbn [andb orb].
  replace (ends_dot (c :: word r) && (48 <=? hd 0 (c :: word r)) && (hd 0 (c :: word r) <=? 57)) with false by (cbn [hd]; unfold letter in HL; replace (c <=? 57) with false by lia; now rewrite andb_false_r).
  cbn [negb]. replace (match b with [] => false | _ => false end) with false by (destruct b; auto). cbn [skipn].
  replace (beqb (slice (c :: r) (-2) (blen (c :: r))) [32; 32]) with false; [rewrite app_nil_r; reflexivity|].
  symmetry. apply not_true_iff_false. intro E. apply beqb_eq in E. unfold slice, bound in E. change (-2 <? 0) with true in E. cbn iota in E.
  assert (BL : blen (c :: r) <? 0 = false) by (unfold blen; lia). rewrite BL in E. unfold sub in E. rewrite firstn_all2 in E by (rewrite skipn_length; unfold blen in *; rewrite Nat2Z.id, Nat.min_id; lia).
  apply LL. rewrite <- (last_skipn (c :: r) (Z.to_nat (-2 + blen (c :: r)))); rewrite E; [reflexivity|discriminate].
Qed.
Lemma blank_turn fuel lines i b blocks : (i < length lines)%nat -> line_at lines i = [] -> b <> [] ->
  md_loop (S fuel) lines 0 i b blocks = md_loop fuel lines 0 (i + 1) [] (blocks ++ flush_p b).
Proof.
  intros LI EL NB. cbn [md_loop]. replace (i <? length lines)%nat with true by (symmetry; apply Nat.ltb_lt; auto). rewrite EL.
  change (strip_cr []) with (@nil Z). change (indentation_and_first_token []) with (0%nat, @nil Z). cbn -[md_loop]. destruct b; [congruence|reflexivity].
Qed.
Lemma empty_turn fuel lines i blocks : (i < length lines)%nat -> line_at lines i = [] ->
  exists b', md_loop (S fuel) lines 0 i [] blocks = md_loop fuel lines 0 (i + 1) b' blocks.
Proof.
  intros LI EL. eexists. cbn [md_loop]. replace (i <? length lines)%nat with true by (symmetry; apply Nat.ltb_lt; auto). rewrite EL.
  change (strip_cr []) with (@nil Z). change (indentation_and_first_token []) with (0%nat, @nil Z). cbn -[md_loop]. reflexivity.
Qed.
Lemma md_stop fuel lines st i b blocks : (length lines <= i)%nat -> md_loop (S fuel) lines st i b blocks = Ok (blocks, i).
Proof. intro L. cbn [md_loop]. replace (i <? length lines)%nat with false by (symmetry; apply Nat.ltb_ge; auto). reflexivity. Qed.
Lemma line_at_app (a : list bytes) x c : line_at (a ++ x :: c) (length a) = x.
Proof. unfold line_at. rewrite app_nth2, Nat.sub_diag by lia. reflexivity. Qed.
Lemma plain_lines p : forall fuel pre post b blocks, Forall plain_line p ->
  md_loop (length p + fuel) (pre ++ p ++ post) 0 (length pre) b blocks = md_loop fuel (pre ++ p ++ post) 0 (length pre + length p) (b ++ p) blocks.
Proof.
  induction p as [|l p IH]; intros fuel pre post b blocks F; [cbn [length app]; rewrite Nat.add_0_r, app_nil_r; reflexivity|].
  inversion F; subst. cbn [length Nat.add]. rewrite plain_turn with (l := l); [|rewrite !app_length; cbn [length]; lia|cbn [app]; apply line_at_app|auto].
  replace (pre ++ (l :: p) ++ post) with ((pre ++ [l]) ++ p ++ post) by (rewrite <- !app_assoc; reflexivity).
  replace (length pre + 1)%nat with (length (pre ++ [l])) by (rewrite app_length; reflexivity). rewrite IH by auto. rewrite app_length. cbn [length]. rewrite <- !app_assoc.
  replace (length pre + 1 + length p)%nat with (length pre + S (length p))%nat by lia. reflexivity.
Qed.
Definition paragraph_lines (p : paragraph) : list bytes := p ++ [[]].
Lemma plain_paragraphs ps : forall fuel pre blocks, Forall plain_paragraph ps -> (length (flat_map paragraph_lines ps) + 1 < fuel)%nat ->
  md_loop fuel (pre ++ flat_map paragraph_lines ps ++ [[]]) 0 (length pre) [] blocks =
  Ok (blocks ++ map (fun p => MdTag (B "p") [MdText (concat p)]) ps, length (pre ++ flat_map paragraph_lines ps ++ [[]])).
Proof.
  induction ps as [|p ps IH]; intros fuel pre blocks F L.
  - cbn [flat_map app map] in *. cbn [length] in L. destruct fuel as [|[|fuel]]; [lia|lia|].
    destruct (empty_turn (S fuel) (pre ++ [[]]) (length pre) blocks) as (b' & ->); [rewrite app_length; cbn; lia|apply line_at_app|].
    rewrite md_stop by (rewrite app_length; cbn; lia). rewrite app_nil_r, app_length. reflexivity.
  - inversion F as [|? ? (NP & PP) F']; subst. cbn [flat_map map] in *. rewrite app_length in L. unfold paragraph_lines at 1 in L. rewrite app_length in L. cbn [length] in L.
    unfold paragraph_lines at 1 3. replace (pre ++ ((p ++ [[]]) ++ flat_map paragraph_lines ps) ++ [[]]) with (pre ++ p ++ ([] :: flat_map paragraph_lines ps ++ [[]])) by (rewrite <- !app_assoc; reflexivity).
    replace fuel with (length p + S (fuel - length p - 1))%nat by lia. rewrite plain_lines by auto. cbn [app].
    rewrite app_assoc, <- app_length. rewrite blank_turn; [|rewrite !app_length; cbn [length]; lia|apply line_at_app|auto].
    replace ((pre ++ p) ++ [] :: flat_map paragraph_lines ps ++ [[]]) with (((pre ++ p) ++ [[]]) ++ flat_map paragraph_lines ps ++ [[]]) by (rewrite <- !app_assoc; reflexivity).
    replace (length (pre ++ p) + 1)%nat with (length ((pre ++ p) ++ [[]])) by (rewrite (app_length (pre ++ p)); reflexivity).
    rewrite IH; [|auto|lia]. f_equal. f_equal. rewrite <- app_assoc. destruct p; [congruence|]. reflexivity.
Qed.
Lemma split_line (l r : bytes) : Forall (fun c => c <> 10) l -> split_on 10 (l ++ 10 :: r) = l :: split_on 10 r.
Proof. induction l as [|c l IH]; intro F; [reflexivity|]. inversion F; subst. cbn [app split_on]. replace (c =? 10) with false by lia. rewrite IH by auto. reflexivity. Qed.
Lemma split_lines ls : Forall (Forall (fun c => c <> 10)) ls -> forall rest, split_on 10 (flat_map (fun l => l ++ [10]) ls ++ rest) = ls ++ split_on 10 rest.
Proof. induction 1 as [|l ls F _ IH]; intro rest; [reflexivity|]. cbn [flat_map app]. rewrite <- !app_assoc. cbn [app]. rewrite split_line by auto. rewrite IH. reflexivity. Qed.
Lemma split_paragraphs ps : Forall plain_paragraph ps -> split_on 10 (flat_map paragraph_source ps) = flat_map paragraph_lines ps ++ [[]].
Proof.
  induction 1 as [|p ps (NP & PP) _ IH]; [reflexivity|]. cbn [flat_map]. unfold paragraph_source at 1. rewrite <- !app_assoc. rewrite split_lines by (eapply Forall_impl; [|exact PP]; intros l (_ & _ & FL); eapply Forall_impl; [|exact FL]; cbn; tauto).
  cbn [app split_on]. change (10 =? 10) with true. cbn iota. rewrite IH. unfold paragraph_lines at 2. rewrite <- !app_assoc. reflexivity.
Qed.
Lemma tags_plain fuel (s : bytes) : (1 < fuel)%nat -> s <> [] -> Forall (fun c => c <> 91 /\ c <> 93 /\ c <> 96 /\ c <> 42 /\ c <> 95) s -> tags fuel s = Ok s.
Proof.
  intros L NS F. unfold tags. assert (E := links_in_place [Plain s]). cbn [source flat_map source1 html html1] in E. rewrite app_nil_r in E. rewrite E.
  - cbn [bind]. f_equal. assert (C := code_in_place [Words s]). cbn [flat_map span_source span_html] in C. rewrite app_nil_r in C. apply C. constructor; [|constructor]. cbn. eapply Forall_impl; [|exact F]. cbn. tauto.
  - constructor; [|constructor]. cbn. split; [auto|]. rewrite Forall_forall in F. split; intro I; apply F in I; lia.
  - cbn. auto.
  - discriminate.
  - cbn. lia.
Qed.
Lemma concat_nil (p : list bytes) : concat p = [] -> Forall (fun l => l = []) p.
Proof. induction p as [|l p IH]; cbn; intro E; [constructor|]. apply app_eq_nil in E as [-> E]. constructor; auto. Qed.
Lemma assemble_plain fuel ps : (1 < fuel)%nat -> Forall plain_paragraph ps ->
  assemble_html fuel (map (fun p => MdTag (B "p") [MdText (concat p)]) ps) = Ok (flat_map paragraph_html ps).
Proof.
  intro L. induction 1 as [|p ps (NP & PP) _ IH]; [reflexivity|]. cbn [map assemble_html assemble]. change (beqb (B "p") (B "pre")) with false. cbn iota.
  rewrite tags_plain; auto.
  - cbn [bind]. rewrite IH. cbn [bind flat_map]. f_equal. unfold paragraph_html. change (B "p") with [112]. change (B "<p>") with [60; 112; 62]. change (B "</p>") with [60; 47; 112; 62]. rewrite app_nil_r. cbn [app]. rewrite <- !app_assoc. reflexivity.
  - intro E. apply concat_nil in E. destruct p as [|l p]; [congruence|]. inversion PP as [|? ? (HL & _) _]; inversion E; subst. unfold letter in HL. cbn in HL. lia.
  - apply Forall_forall. intros c IC. apply in_concat in IC as (l & Il & Ic). rewrite Forall_forall in PP. destruct (PP l Il) as (_ & _ & FL). rewrite Forall_forall in FL. specialize (FL c Ic). tauto.
Qed.
Theorem paragraphs_rendered ps fuel : Forall plain_paragraph ps -> (length (flat_map paragraph_source ps) + 1 < fuel)%nat ->
  render_html fuel (flat_map paragraph_source ps) = Ok (flat_map paragraph_html ps).
Proof.
  intros F L. unfold render_html, parse_markdown. rewrite split_paragraphs by auto.
  change (flat_map paragraph_lines ps ++ [[]]) with ([] ++ flat_map paragraph_lines ps ++ [[]]). change 0%nat with (@length bytes []) at 2. rewrite (plain_paragraphs ps fuel [] [] F).
  - cbn [bind app]. apply assemble_plain; [lia|auto].
  - enough ((length (flat_map paragraph_lines ps) <= length (flat_map paragraph_source ps))%nat) by lia. clear.
    induction ps as [|p ps IH]; [auto|]. cbn [flat_map]. rewrite !app_length. enough ((length (paragraph_lines p) <= length (paragraph_source p))%nat) by lia.
    unfold paragraph_lines, paragraph_source. rewrite !app_length. cbn [length]. enough ((length p <= length (flat_map (fun l => l ++ [10%Z]) p))%nat) by lia. induction p as [|l p IHp]; [auto|]. cbn [flat_map]. rewrite !app_length. cbn [length]. lia.
Qed.

(* ---------- C77 ---------- *)
Theorem entities_safe s : ~ In 60 (entities s) /\ ~ In 62 (entities s).
Proof.
  assert (G : forall x c, In x (if c =? 60 then [38; 108; 116; 59] else if c =? 62 then [38; 103; 116; 59] else [c]) -> x <> 60 /\ x <> 62).
  { intros x c I. destruct (c =? 60) eqn:E1; [cbn in I; lia|]. destruct (c =? 62) eqn:E2; cbn in I; lia. }
  split; intro I; apply in_flat_map in I as (c & _ & I); apply G in I; lia.
Qed.
Lemma shown_cons c s : c <> 38 -> shown_text (c :: s) = c :: shown_text s.
Proof. intro N. cbn [shown_text]. replace (c =? 38) with false by lia. cbn [andb]. destruct s as [|? [|? [|? [|? ?]]]]; reflexivity. Qed.
Theorem entities_read s : ~ In 38 s -> shown_text (entities s) = s.
Proof.
  induction s as [|c s IH]; intro N; [reflexivity|]. cbn in N. assert (IH' := IH ltac:(tauto)). unfold entities in *. cbn [flat_map].
  destruct (c =? 60) eqn:E1; [cbn [app]; cbn [shown_text starts skipn Z.eqb Pos.eqb andb]; f_equal; [lia|exact IH']|].
  destruct (c =? 62) eqn:E2; [cbn [app]; cbn [shown_text starts skipn Z.eqb Pos.eqb andb]; f_equal; [lia|exact IH']|].
  cbn [app]. rewrite shown_cons by tauto. f_equal. exact IH'.
Qed.
