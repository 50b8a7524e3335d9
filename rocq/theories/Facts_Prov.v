(* Data providers (C22-C24) and hex dump (C53) *)
From Coq Require Import String ZifyBool ZifyNat.
From Verif Require Import PyBase Model_Filters Model_Objects Model_Filestruct Spec_Filestruct Facts_Base Facts_Filters.

Lemma blen_pos b : b <> [] -> 0 < blen b.
Proof. destruct b; [congruence|]. unfold blen. cbn [length]. lia. Qed.

Lemma blen_app a b : blen (a ++ b) = blen a + blen b.
Proof. unfold blen. rewrite app_length. lia. Qed.

(* the position p < len with a number of bytes given by the provider formula *)
Lemma sub_file b p l : (p <= length b)%nat -> -1 <= l ->
  sub b p (Z.to_nat (Z.of_nat p + (if l =? -1 then blen b - Z.of_nat p else Z.min (blen b - Z.of_nat p) l)))
  = file_bytes b p l.
Proof.
  intros P L. unfold sub, file_bytes, blen. destruct (l =? -1) eqn:E.
  - replace (Z.to_nat _ - p)%nat with (length (skipn p b)); [apply firstn_all|]. rewrite skipn_length. lia.
  - destruct (Z.leb_spec (Z.of_nat (length b) - Z.of_nat p) l).
    + rewrite !firstn_all2; auto; rewrite skipn_length; lia.
    + f_equal. lia.
Qed.

Lemma file_bytes_length b p l : (p <= length b)%nat -> -1 <= l ->
  blen (file_bytes b p l) = if l =? -1 then blen b - Z.of_nat p else Z.min (blen b - Z.of_nat p) l.
Proof.
  intros P L. unfold file_bytes, blen. destruct (l =? -1) eqn:E.
  - rewrite skipn_length. lia.
  - rewrite firstn_length, skipn_length. lia.
Qed.

Theorem single_contract b s l : b <> [] -> - blen b <= s < blen b -> -1 <= l ->
  let p := Z.to_nat (if s <? 0 then s + blen b else s) in
  exists r, run_prov (PvSingle b) (Some s) l = Ok r /\
    rd_bytes r = file_bytes b p l /\ rd_count r = blen (file_bytes b p l) /\
    exists i n, r = RBuf b i n /\ i = Z.of_nat p.
Proof.
  intros NE S L p. pose proof (blen_pos b NE) as P0. cbn [run_prov].
  replace (blen b =? 0) with false by lia. cbn zeta.
  assert (P : (p <= length b)%nat) by (unfold p, blen in *; destruct (s <? 0) eqn:E; lia).
  assert (M : (s + blen b) mod blen b = Z.of_nat p).
  { unfold p. destruct (s <? 0) eqn:E.
    - rewrite Z.mod_small by lia. lia.
    - rewrite <- Z.add_mod_idemp_r, Z_mod_same_full, Z.add_0_r, Z.mod_small by lia. lia. }
  rewrite M. eexists. split; [reflexivity|]. cbn [rd_bytes rd_count]. rewrite Nat2Z.id.
  split; [apply sub_file; auto|]. split; [symmetry; apply file_bytes_length; auto|].
  eexists _, _. split; reflexivity.
Qed.

Theorem single_length b : bdata_length (PvSingle b) = Ok (blen b).
Proof. reflexivity. Qed.

Theorem single_all b : b <> [] -> bdata_all (PvSingle b) = Ok (Some b).
Proof. intros NE. unfold bdata_all. cbn [run_prov]. pose proof (blen_pos b NE). replace (blen b =? 0) with false by lia. reflexivity. Qed.

(* ---------- CONTINUOUS ---------- *)
Theorem cont_view b s l : b <> [] -> - blen b <= s < blen b -> -1 <= l ->
  let p := Z.to_nat (if s <? 0 then s + blen b else s) in
  exists r, run_prov (PvCont b) (Some s) l = Ok r /\
    rd_bytes r = skipn p (file_bytes b p l) /\ rd_count r = blen (file_bytes b p l).
Proof.
  intros NE S L p. pose proof (blen_pos b NE) as P0. cbn [run_prov].
  replace (blen b =? 0) with false by lia. cbn zeta.
  assert (P : (p <= length b)%nat) by (unfold p, blen in *; destruct (s <? 0) eqn:E; lia).
  assert (M : (s + blen b) mod blen b = Z.of_nat p).
  { unfold p. destruct (s <? 0) eqn:E.
    - rewrite Z.mod_small by lia. lia.
    - rewrite <- Z.add_mod_idemp_r, Z_mod_same_full, Z.add_0_r, Z.mod_small by lia. lia. }
  rewrite M. pose proof (file_bytes_length b p l P L) as FL.
  pose proof (sub_file b p l P L) as SF.
  set (n := if l =? -1 then blen b - Z.of_nat p else Z.min (blen b - Z.of_nat p) l) in *.
  assert (0 <= n) by (rewrite <- FL; unfold blen; lia).
  replace (n <? 0) with false by lia.
  eexists. split; [reflexivity|]. cbn [rd_bytes rd_count]. rewrite !Nat2Z.id, SF. split; [|auto].
  unfold sub. rewrite firstn_all2; auto. rewrite skipn_length. unfold blen in FL. lia.
Qed.

Theorem cont_at_zero b l : b <> [] -> -1 <= l ->
  exists r r', run_prov (PvCont b) (Some 0) l = Ok r /\ run_prov (PvSingle b) (Some 0) l = Ok r' /\
    rd_bytes r = rd_bytes r' /\ rd_count r = rd_count r'.
Proof.
  intros NE L. pose proof (blen_pos b NE) as P0.
  destruct (cont_view b 0 l NE ltac:(lia) L) as (r & E & V & C).
  destruct (single_contract b 0 l NE ltac:(lia) L) as (r' & E' & V' & C' & _).
  exists r, r'. cbn in V, V'. rewrite V, V'. repeat split; auto. lia.
Qed.

Theorem cont_short b s l : 0 < s < blen b -> l = -1 \/ 1 <= l ->
  exists r r', run_prov (PvCont b) (Some s) l = Ok r /\ run_prov (PvSingle b) (Some s) l = Ok r' /\
    rd_count r = rd_count r' /\ (length (rd_bytes r) < length (rd_bytes r'))%nat.
Proof.
  intros S L. assert (NE : b <> []) by (intros ->; cbn in S; lia).
  destruct (cont_view b s l NE ltac:(lia) ltac:(lia)) as (r & E & V & C).
  destruct (single_contract b s l NE ltac:(lia) ltac:(lia)) as (r' & E' & V' & C' & _).
  exists r, r'. rewrite V, V'. split; auto. split; auto. split; [lia|].
  replace (s <? 0) with false in * by lia. rewrite skipn_length.
  pose proof (file_bytes_length b (Z.to_nat s) l ltac:(unfold blen in S; lia) ltac:(lia)) as FL.
  unfold blen in FL, S. destruct (l =? -1) eqn:EL; lia.
Qed.

(* ---------- composite ---------- *)
Lemma base_read f p s l : base_on f p -> (s < length f)%nat -> -1 <= l ->
  exists r, run_prov p (Some (Z.of_nat s)) l = Ok r /\ rd_bytes r = file_bytes f s l.
Proof.
  intros [|] S L.
  - assert (NE : f <> []) by (intros ->; cbn in S; lia).
    destruct (single_contract f (Z.of_nat s) l NE ltac:(unfold blen; lia) L) as (r & E & V & _).
    exists r. split; auto. rewrite V. replace (Z.of_nat s <? 0) with false by lia. rewrite Nat2Z.id. reflexivity.
  - cbn [run_prov]. replace (Z.of_nat s =? -1) with false by lia. cbn [andb].
    eexists. split; [reflexivity|]. cbn [rd_bytes]. rewrite Nat2Z.id, <- sub_file by lia.
    do 3 f_equal. destruct (l =? -1); lia.
Qed.

Lemma file_bytes_firstn f cut s l : (s <= cut)%nat -> -1 <= l ->
  firstn (cut - s) (file_bytes f s l) = file_bytes (firstn cut f) s l.
Proof.
  intros S L. unfold file_bytes. destruct (l =? -1).
  - rewrite skipn_firstn_comm. reflexivity.
  - rewrite firstn_firstn, skipn_firstn_comm, firstn_firstn. f_equal. lia.
Qed.

(* reading inside the k-th segment *)
Theorem stack_read f ups : forall p cut,
  (forall s l, (s < cut)%nat -> -1 <= l -> exists r, run_prov p (Some (Z.of_nat s)) l = Ok r /\
     firstn (cut - s) (rd_bytes r) = file_bytes (firstn cut f) s l) ->
  (cut <= length f)%nat ->
  (forall s l, (s < cut)%nat -> -1 <= l ->
     exists r, run_prov (stack p cut ups) (Some (Z.of_nat s)) l = Ok r /\
       firstn (cut - s) (rd_bytes r) = file_bytes (firstn cut f) s l) /\
  (forall before u after o l, ups = before ++ u :: after -> (0 < o < length u)%nat -> -1 <= l ->
     exists r, run_prov (stack p cut ups) (Some (Z.of_nat (cut + length (concat before) + o))) l = Ok r /\
       rd_bytes r = file_bytes u o l).
Proof.
  assert (G : forall us p cut s l, (s <= cut)%nat ->
     run_prov (stack p cut us) (Some (Z.of_nat s)) l = run_prov p (Some (Z.of_nat s)) l).
  { induction us as [|u us IH]; intros p cut s l S; cbn [stack]; auto.
    rewrite IH by lia. cbn [run_prov]. replace (Z.of_nat cut <? Z.of_nat s) with false by lia. reflexivity. }
  intros p cut HP C. split.
  - intros s l S L. rewrite G by lia. apply HP; auto.
  - intros before u after o l -> O L. clear HP. revert p cut C. 
    assert (K : forall p cut, exists r,
      run_prov (stack p cut (before ++ u :: after)) (Some (Z.of_nat (cut + length (concat before) + o))) l = Ok r /\
      rd_bytes r = file_bytes u o l); [|intros; apply K].
    induction before as [|v before IH]; intros p cut; cbn [app stack concat].
    + cbn [length]. rewrite G by lia. cbn [run_prov].
      replace (Z.of_nat cut <? Z.of_nat (cut + 0 + o)) with true by lia.
      replace (Z.of_nat (cut + 0 + o) - Z.of_nat cut) with (Z.of_nat o) by lia.
      replace (Z.of_nat o =? -1) with false by lia. eexists. split; [reflexivity|]. cbn [rd_bytes].
      rewrite Nat2Z.id, <- sub_file by lia. do 3 f_equal. destruct (l =? -1); lia.
    + rewrite app_length.
      replace (cut + (length v + length (concat before)) + o)%nat with (cut + length v + length (concat before) + o)%nat by lia.
      apply IH.
Qed.

Theorem stack_contract f base cut ups : base_on f base -> (cut <= length f)%nat ->
  (forall s l, (s < cut)%nat -> -1 <= l ->
     exists r, run_prov (stack base cut ups) (Some (Z.of_nat s)) l = Ok r /\
       firstn (cut - s) (rd_bytes r) = file_bytes (firstn cut f) s l) /\
  (forall before u after o l, ups = before ++ u :: after -> (0 < o < length u)%nat -> -1 <= l ->
     exists r, run_prov (stack base cut ups) (Some (Z.of_nat (cut + length (concat before) + o))) l = Ok r /\
       rd_bytes r = file_bytes u o l) /\
  (ups <> [] -> bdata_length (stack base cut ups) = Ok (blen (firstn cut f ++ concat ups))).
Proof.
  intros BO C. destruct (stack_read f ups base cut) as [A D]; auto.
  { intros s l S L. destruct (base_read f base s l BO ltac:(lia) L) as (r & E & V).
    exists r. split; auto. rewrite V. apply file_bytes_firstn; lia. }
  split; auto. split; auto. intros NE.
  assert (K : forall ups p cut, ups <> [] -> bdata_length (stack p cut ups) = Ok (Z.of_nat (cut + length (concat ups)))).
  { clear. induction ups as [|u ups IH]; intros p cut NE; [congruence|]. destruct ups as [|v ups].
    - cbn. unfold blen. rewrite app_nil_r. f_equal. lia.
    - change (stack p cut (u :: v :: ups)) with (stack (PvMerge p (Z.of_nat cut) u) (cut + length u) (v :: ups)).
      rewrite IH by discriminate. change (concat (u :: v :: ups)) with (u ++ concat (v :: ups)). rewrite app_length.
      f_equal. lia. }
  rewrite K by auto. unfold blen. rewrite app_length, firstn_length. f_equal. lia.
Qed.

(* ---------- hex dump ---------- *)


Lemma ljust_app w s : (length s <= w)%nat -> length (ljust w s) = w.
Proof. intros. unfold ljust. rewrite app_length, repeat_length. lia. Qed.

Lemma hex_sp_length l : length (hex_sp l) = (3 * length l - 1)%nat.
Proof.
  induction l as [|c l IH]; auto. destruct l as [|d l]; auto.
  change (hex_sp (c :: d :: l)) with (hex2 c ++ [32] ++ hex_sp (d :: l)).
  rewrite !app_length, IH. cbn [length hex2]. lia.
Qed.

Lemma filter_sp32 n : filter (fun c => negb (c =? 32)) (repeat 32 n) = [].
Proof. induction n; auto. Qed.

Lemma hexdig_l_props d : 0 <= d < 16 -> hexdig_l d <> 32 /\ dval (hexdig_l d) = d.
Proof. intros. unfold hexdig_l, dval. destruct (d <? 10) eqn:E; split; try lia;
  repeat match goal with |- context [if ?c then _ else _] => destruct c eqn:?; try lia end. Qed.

Lemma unhex_sp l : Forall isbyte l -> unhexlify (filter (fun c => negb (c =? 32)) (hex_sp l)) = Some l.
Proof.
  assert (S : forall c r x, isbyte c -> unhexlify r = Some x ->
    unhexlify (hexdig_l (c / 16) :: hexdig_l (c mod 16) :: r) = Some (c :: x)).
  { intros c r x H E. cbn [unhexlify]. unfold isbyte in H.
    destruct (hexdig_l_props (c / 16)) as [_ ->]; [lia|]. destruct (hexdig_l_props (c mod 16)) as [_ ->]; [lia|].
    replace ((c / 16 <? 16) && (c mod 16 <? 16)) with true by lia. rewrite E. cbn [option_map]. do 2 f_equal. lia. }
  induction 1 as [|c l H F IH]; auto.
  assert (H' := H). unfold isbyte in H'.
  assert (FH : forall r, filter (fun c => negb (c =? 32)) (hex2 c ++ r)
               = hexdig_l (c / 16) :: hexdig_l (c mod 16) :: filter (fun c => negb (c =? 32)) r).
  { intros r. cbn [hex2 app filter].
    destruct (hexdig_l_props (c / 16)) as [N1 _]; [lia|]. destruct (hexdig_l_props (c mod 16)) as [N2 _]; [lia|].
    replace (hexdig_l (c / 16) =? 32) with false by lia. replace (hexdig_l (c mod 16) =? 32) with false by lia. reflexivity. }
  destruct l as [|d l].
  - cbn [hex_sp]. rewrite <- (app_nil_r (hex2 c)), FH. apply S; auto.
  - change (hex_sp (c :: d :: l)) with (hex2 c ++ [32] ++ hex_sp (d :: l)). rewrite FH. apply S; auto.
Qed.

Lemma dec_nat_length_le n k : 0 <= n < 10 ^ Z.of_nat k -> (0 < k)%nat -> (length (dec_nat n) <= k)%nat.
Proof.
  intros N K. destruct (Z.eq_dec n 0) as [->|]. { cbn. lia. }
  pose proof (dec_nat_len n ltac:(lia)). assert (Z.of_nat (length (dec_nat n)) - 1 < Z.of_nat k); [|lia].
  apply (Z.pow_lt_mono_r_iff 10); lia.
Qed.

Lemma pad0_length w n : (0 < w)%nat -> 0 <= n < 10 ^ Z.of_nat w -> length (pad0 w n) = w.
Proof.
  intros W N. unfold pad0. replace (n <? 0) with false by lia. cbn [app length].
  rewrite app_length, repeat_length. replace (Z.abs n) with n by lia.
  pose proof (dec_nat_length_le n w N W). lia.
Qed.

Lemma printable_eq c : isbyte c -> ascii_hexdump_printable c = printable c.
Proof. reflexivity. Qed.

Lemma sub_app_exact a x r i j : i = length a -> j = (length a + length x)%nat -> sub (a ++ x ++ r) i j = x.
Proof. intros -> ->. apply sub_app. Qed.

Lemma hexdump_line_shows b k : Forall isbyte b -> 10 * Z.of_nat k < 10 ^ 10 ->
  shows b k (hexdump_line (10 * Z.of_nat k) (chunk b k)).
Proof.
  intros FB K. unfold shows, hexdump_line.
  assert (PL : length (pad0 10 (10 * Z.of_nat k)) = 10%nat) by (apply pad0_length; [lia|]; change (10 ^ Z.of_nat 10) with (10 ^ 10); lia).
  assert (CL : (length (chunk b k) <= 10)%nat) by (unfold chunk; rewrite firstn_length; lia).
  assert (FC : Forall isbyte (chunk b k)).
  { unfold chunk. apply Forall_forall. intros x I. rewrite Forall_forall in FB. apply FB.
    rewrite <- (firstn_skipn (10 * k) b). apply in_or_app. right. rewrite <- (firstn_skipn 10). apply in_or_app. auto. }
  assert (HL : length (ljust 29 (hex_sp (chunk b k))) = 29%nat) by (apply ljust_app; rewrite hex_sp_length; lia).
  split; [|split].
  - apply (sub_app_exact [] _ _ 0 10); cbn [length]; lia.
  - unfold hex_column. rewrite (app_assoc (pad0 _ _)).
    rewrite (sub_app_exact (pad0 10 (10 * Z.of_nat k) ++ [32; 32]) (ljust 29 (hex_sp (chunk b k)))).
    2-3: rewrite app_length; cbn [length]; lia.
    unfold ljust. rewrite filter_app, filter_sp32, app_nil_r. apply unhex_sp; auto.
  - rewrite !(app_assoc (pad0 _ _)), (app_assoc (_ ++ [32; 32])).
    match goal with |- skipn 41 (?a ++ ?r) = _ => replace 41%nat with (length a); [rewrite skipn_app_len|rewrite !app_length; cbn [length]; lia] end.
    reflexivity.
Qed.

Lemma hexdump_loop_ok b e : forall n i k fuel, i = (10 * Z.of_nat k) -> e <= i + 10 * Z.of_nat n -> i + 10 * Z.of_nat n < e + 10 -> (n < fuel)%nat ->
  hexdump_loop fuel b i e = Ok (concat (map (fun j => hexdump_line (10 * Z.of_nat j) (chunk b j)) (seq k n))).
Proof.
  induction n as [|n IH]; intros i k fuel I E1 E2 F; (destruct fuel as [|fuel]; [lia|]); cbn [hexdump_loop].
  - replace (i <? e) with false by lia. reflexivity.
  - replace (i <? e) with true by lia. rewrite (IH (i + 10) (S k)) by lia. cbn [bind seq map concat].
    do 2 f_equal. rewrite I. f_equal. unfold sub, chunk. f_equal; [lia|]. f_equal. lia.
Qed.

Theorem hexdump_lines b start stop : b <> [] -> Forall isbyte b -> blen b < 10 ^ 10 ->
  0 <= start < blen b -> start <= stop ->
  let e := Z.min stop (blen b) in
  let k0 := Z.to_nat (start / 10) in
  exists lines, hexdump (PvSingle b) (Some start) (Some stop) = Ok (concat lines) /\
    length lines = (Z.to_nat ((e + 9) / 10) - k0)%nat /\
    (forall j l, nth_error lines j = Some l -> shows b (k0 + j) l).
Proof.
  intros NE FB BL S1 S2 e k0. unfold hexdump. rewrite single_length. cbn [bind].
  replace (if blen b <? stop then blen b else stop) with e by (unfold e; destruct (blen b <? stop) eqn:?; lia).
  set (idx := start / 10 * 10). unfold read_at.
  assert (I0 : 0 <= idx <= start) by (unfold idx; lia).
  destruct (single_contract b idx (e - start + (start - idx)) NE ltac:(lia) ltac:(unfold e; lia)) as (r & E & _ & C & i & n & -> & I).
  rewrite E. cbn [bind rd_count] in *. replace (idx <? 0) with false in * by lia. 
  assert (i = idx) by lia. clear I. subst i. replace (idx <? 0) with false by lia. cbn [bind].
  rewrite Z2Nat.id by lia.
  rewrite file_bytes_length in C by (unfold blen in *; lia).
  assert (N : n = e - idx). { rewrite C. replace (e - start + (start - idx) =? -1) with false by (unfold e; lia). unfold e. lia. }
  clear C. set (m := (Z.to_nat ((e + 9) / 10) - k0)%nat).
  exists (map (fun j => hexdump_line (10 * Z.of_nat j) (chunk b j)) (seq k0 m)).
  split; [|split].
  - apply hexdump_loop_ok; unfold idx, m, k0, e in *; try lia.
  - rewrite map_length, seq_length. reflexivity.
  - intros j l J. rewrite nth_error_map in J. destruct (nth_error (seq k0 m) j) as [x|] eqn:X; [|discriminate].
    cbn in J. injection J as <-. assert (JM : (j < m)%nat) by (rewrite <- (seq_length m k0); apply nth_error_Some; congruence).
    rewrite (nth_error_nth' _ 0%nat) in X by (rewrite seq_length; auto). rewrite seq_nth in X by auto. injection X as <-.
    apply hexdump_line_shows; auto. unfold m, k0, e in *. lia.
Qed.

Theorem hexdump_all b : b <> [] -> Forall isbyte b -> blen b < 10 ^ 10 ->
  exists lines, hexdump (PvSingle b) None None = Ok (concat lines) /\
    (forall j l, nth_error lines j = Some l -> shows b j l) /\
    concat (map (fun j => chunk b j) (seq 0 (length lines))) = b.
Proof.
  intros NE FB BL. pose proof (blen_pos b NE).
  destruct (hexdump_lines b 0 (blen b) NE FB BL ltac:(lia) ltac:(lia)) as (lines & E & L & P).
  exists lines. split; [|split; [exact P|]].
  - rewrite <- E. unfold hexdump. rewrite single_length. cbn [bind].
    replace (blen b <? blen b) with false by lia. reflexivity.
  - change (0 / 10) with 0 in L. rewrite Nat.sub_0_r in L. rewrite L. clear.
    assert (G : forall n b, (length b <= 10 * n)%nat -> concat (map (fun j => chunk b j) (seq 0 n)) = b).
    { clear. induction n as [|n IH]; intros b L. { destruct b; cbn in *; [auto|lia]. }
      cbn [seq map concat]. rewrite <- seq_shift, map_map.
      rewrite (map_ext _ (fun j => chunk (skipn 10 b) j)).
      2:{ intros j. unfold chunk. rewrite skipn_skipn. do 2 f_equal. lia. }
      rewrite IH by (rewrite skipn_length; lia). unfold chunk. cbn [skipn Nat.mul]. apply firstn_skipn. }
    apply G. unfold blen. lia.
Qed.
