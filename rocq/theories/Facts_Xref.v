(* Cross-reference sections: written and read back (C16-C18, C20) *)
From Coq Require Import String ZifyBool ZifyNat.
From Verif Require Import PyBase Model_Filters Model_Objects Model_Filestruct Spec_Objects Spec_Filestruct
  Facts_Base Facts_Token Facts_Obj Facts_Ser Facts_Parse Facts_Top Facts_Filters Facts_Refs Facts_Prov.

(* ---------- free list ---------- *)
Lemma links_keys l : map fst (links l) = l.
Proof. induction l as [|a l IH]; auto. cbn [links map fst]. f_equal. exact IH. Qed.

Lemma zlookup_None {A} k (m : list (Z * A)) : ~ In k (map fst m) -> zlookup k m = None.
Proof.
  induction m as [|[k' v] m IH]; auto. cbn [map fst In zlookup]. intros N. rewrite IH by tauto.
  destruct (k =? k') eqn:E; auto. exfalso. apply N. left. lia.
Qed.

Lemma chained_cons m p l : chained m l -> chained (p :: m) l.
Proof.
  destruct p as [k v]. induction l as [|a l IH]; auto. cbn [chained]. destruct l as [|b l]; auto.
  intros [E C]. split; [cbn [zlookup]; rewrite E; auto|]. apply IH; auto.
Qed.

Lemma links_chained l : NoDup l -> chained (links l) (l ++ [0]).
Proof.
  induction 1 as [|a l NI ND IH]; [exact Logic.I|].
  cbn [app links]. destruct l as [|b l].
  - cbn. rewrite Z.eqb_refl. auto.
  - cbn [app] in IH |- *. cbn [chained]. split.
    + cbn [zlookup]. rewrite zlookup_None by (rewrite links_keys; auto). rewrite Z.eqb_refl. reflexivity.
    + exact (chained_cons _ (a, b) (b :: l ++ [0]) IH).
Qed.

Theorem free_list chg : let del := map (fun c => snd (fst c)) (filter (fun c => is_del (snd c)) chg) in
  NoDup (0 :: del) ->
  chained (circular_deleted chg) (0 :: del ++ [0]) /\
  forall k, zlookup k (circular_deleted chg) <> None <-> In k (0 :: del).
Proof.
  intros del ND. split; [exact (links_chained (0 :: del) ND)|].
  intros k. unfold circular_deleted. fold del.
  assert (G : forall l, zlookup k (links l) <> None <-> In k l).
  { clear. induction l as [|a l IH]; [cbn; tauto|]. cbn [links zlookup In].
    destruct (zlookup k (links l)) eqn:E.
    - split; [intros _; right; apply IH; discriminate|discriminate].
    - destruct (k =? a) eqn:EA.
      + split; [left; lia|discriminate].
      + split; [congruence|]. intros [->|I]; [lia|]. apply IH in I. congruence. }
  apply G.
Qed.

(* ---------- maximal runs ---------- *)
Lemma group_runs_map {A C} (f : A -> C) (num : A -> Z) l :
  group_runs (map (fun x => (f x, num x)) l)
  = map (fun g => (fst g, map f (snd g))) (group_runs (map (fun x => (x, num x)) l)).
Proof.
  induction l as [|x l IH]; auto. cbn [map group_runs]. rewrite IH.
  destruct (group_runs (map (fun x0 => (x0, num x0)) l)) as [|[m xs] g]; auto.
  cbn [map fst snd]. destruct (num x + 1 =? m); auto.
Qed.

Lemma group_runs_maximal {A} (num : A -> Z) l :
  maximal_runs num l (group_runs (map (fun x => (x, num x)) l)).
Proof.
  unfold maximal_runs. induction l as [|x l (E & R & G)]; [repeat split; constructor|].
  cbn [map group_runs]. destruct (group_runs (map (fun x0 => (x0, num x0)) l)) as [|[m xs] g] eqn:EG.
  - cbn in E. subst l. split; [reflexivity|]. split; [|exact Logic.I].
    constructor; auto. split; [discriminate|]. cbn. f_equal. lia.
  - destruct (num x + 1 =? m) eqn:EM.
    + split; [|split].
      * cbn [flat_map snd] in *. rewrite E. reflexivity.
      * inversion R as [|? ? [NE M] R']; subst. constructor; auto. cbn [fst snd] in *.
        split; [discriminate|]. cbn [map length seq fst snd]. apply f_equal2; [cbn [fst]; lia|].
        rewrite M, <- seq_shift, map_map. apply map_ext. intros k. lia.
      * cbn [gaps] in *. destruct g; auto. cbn [fst snd length] in *. destruct G as [G1 G2]. split; auto. lia.
    + split; [|split].
      * cbn [flat_map snd] in *. rewrite E. reflexivity.
      * constructor; auto. split; [discriminate|]. cbn. f_equal. lia.
      * cbn [gaps] in *. split; [cbn [fst snd length]; lia|]. exact G.
Qed.

(* ---------- lines ---------- *)
Definition noeol (s : bytes) : Prop := Forall (fun c => c <> 10 /\ c <> 13) s.

Lemma inb_eol c : inb c EOL = false <-> c <> 10 /\ c <> 13.
Proof. rewrite inb_not_In. cbn. intuition. Qed.

Lemma nline_line line : forall st cur r, noeol line ->
  nline (Some st) cur (line ++ 10 :: r) = Some (st, (cur + length line)%nat).
Proof.
  induction line as [|c line IH]; intros st cur r N.
  - cbn. f_equal. f_equal. lia.
  - inversion N; subst. cbn [app nline]. replace (inb c EOL) with false by (symmetry; apply inb_eol; auto).
    rewrite IH by auto. cbn [length]. f_equal. f_equal. lia.
Qed.

Lemma next_line_at pre line r : noeol line -> line <> [] ->
  next_line (pre ++ line ++ 10 :: r) (length pre) = Some (length pre, (length pre + length line)%nat).
Proof.
  intros N NE. unfold next_line. rewrite skipn_app_len. destruct line as [|c line]; [congruence|].
  inversion N; subst. cbn [app nline]. replace (inb c EOL) with false by (symmetry; apply inb_eol; auto).
  rewrite nline_line by auto. cbn [length]. f_equal. f_equal. lia.
Qed.

Lemma next_line_nl pre line r : noeol line -> line <> [] ->
  next_line (pre ++ [10] ++ line ++ 10 :: r) (length pre)
  = Some (length (pre ++ [10%Z]), (length (pre ++ [10%Z]) + length line)%nat).
Proof.
  intros N NE. unfold next_line. rewrite skipn_app_len. cbn [app nline].
  replace (inb 10 EOL) with true by reflexivity.
  destruct line as [|c line]; [congruence|].
  inversion N; subst. cbn [app nline]. replace (inb c EOL) with false by (symmetry; apply inb_eol; auto).
  rewrite nline_line by auto. rewrite app_length. cbn [length]. f_equal. f_equal; lia.
Qed.

Lemma noeol_app a b : noeol a -> noeol b -> noeol (a ++ b).
Proof. intros. apply Forall_app; auto. Qed.

(* ---------- words ---------- *)
Lemma split_ws_aux_word w : forall cur r, Forall (fun c => inb c WS = false) w ->
  split_ws_aux cur (w ++ r) = split_ws_aux (rev w ++ cur) r.
Proof.
  induction w as [|c w IH]; intros cur r F; auto.
  inversion F; subst. cbn [app split_ws_aux]. rewrite H1. rewrite IH by auto. cbn [rev]. rewrite <- app_assoc. reflexivity.
Qed.

Lemma split_ws_2 a r : a <> [] -> Forall (fun c => inb c WS = false) a ->
  split_ws (a ++ [32] ++ r) = a :: split_ws r.
Proof.
  intros NE F. unfold split_ws. rewrite split_ws_aux_word by auto. rewrite app_nil_r. cbn [app split_ws_aux].
  replace (inb 32 WS) with true by reflexivity.
  destruct (rev a) eqn:E. { apply (f_equal (@rev Z)) in E. rewrite rev_involutive in E. cbn in E; congruence. }
  rewrite <- E, rev_involutive. reflexivity.
Qed.

Lemma isdig_ws s : Forall isdig s -> Forall (fun c => inb c WS = false) s.
Proof.
  intros F. eapply Forall_impl; [|exact F]. intros c H. apply inb_not_In. apply isdig_not_ws; auto.
Qed.

Lemma pad0_dig w n : 0 <= n -> Forall isdig (pad0 w n) /\ pad0 w n <> [] /\ val_digits (pad0 w n) = n.
Proof.
  intros N. unfold pad0. replace (n <? 0) with false by lia. cbn [app length]. replace (Z.abs n) with n by lia.
  split; [|split].
  - apply Forall_app. split; [|apply dec_nat_dig; auto]. apply Forall_forall. intros x I. apply repeat_spec in I. subst. unfold isdig. lia.
  - intros E. apply app_eq_nil in E as [_ E]. apply (dec_nat_nonnil n E).
  - rewrite val_digits_app2, val_digits_zeros, dec_nat_val by auto. lia.
Qed.

Lemma py_int_pad0 w n : 0 <= n -> py_int 10 (pad0 w n) = Some n.
Proof. intros N. destruct (pad0_dig w n N) as (A & C & D). rewrite py_int_digs by auto. congruence. Qed.

Lemma dec_dig n : 0 <= n -> Forall isdig (dec n) /\ dec n <> [].
Proof. intros N. unfold dec. replace (n <? 0) with false by lia. split; [apply dec_nat_dig; auto|apply dec_nat_nonnil]. Qed.

Lemma noeol_dig s : Forall isdig s -> noeol s.
Proof. intros F. eapply Forall_impl; [|exact F]. unfold isdig. intros. lia. Qed.

Lemma strip_ends s a b m : s = a :: m ++ [b] -> a <> 32 -> b <> 32 -> strip [32] s = s.
Proof.
  intros -> A Bq. unfold strip. cbn [lstrip]. replace (inb a [32]) with false by (cbn; lia).
  change (a :: m ++ [b]) with ((a :: m) ++ [b]). rewrite rev_app_distr. cbn [rev app lstrip].
  replace (inb b [32]) with false by (cbn; lia). cbn [rev].
  rewrite !rev_app_distr. cbn [rev app]. rewrite rev_involutive. reflexivity.
Qed.

(* text of a line of the table *)
Definition line_text (l : xline) : bytes :=
  match l with
  | XSub n k => dec n ++ [32] ++ dec k
  | XEnt off _ gen kw => pad0 10 off ++ [32] ++ pad0 5 gen ++ [32] ++ kw
  end.
Definition line_ok (l : xline) : Prop :=
  match l with
  | XSub n k => 0 <= n /\ 0 <= k
  | XEnt off _ gen kw => 0 <= off /\ 0 <= gen /\ (kw = [102] \/ kw = [110])
  end.
Fixpoint numbered (o : option Z) (ls : list xline) : Prop :=
  match ls with
  | [] => True
  | XSub n _ :: r => numbered (Some n) r
  | XEnt _ num _ _ :: r => o = Some num /\ numbered (Some (num + 1)) r
  end.

Lemma dig_split s : Forall isdig s -> s <> [] -> exists c r, s = c :: r /\ 48 <= c <= 57.
Proof. intros F N. destruct s as [|c r]; [congruence|]. inversion F; subst. exists c, r. split; auto. Qed.

Lemma dig_last s : Forall isdig s -> s <> [] -> exists m b, s = m ++ [b] /\ b <> 32.
Proof.
  intros F N. destruct (@exists_last _ s N) as (m & b & ->). exists m, b. split; auto.
  apply Forall_app in F as [_ F]. inversion F; subst. unfold isdig in *. lia.
Qed.

Lemma line_facts l : line_ok l -> noeol (line_text l) /\
  (exists c r, line_text l = c :: r /\ 48 <= c <= 57) /\ strip [32] (line_text l) = line_text l.
Proof.
  intros OK. destruct l as [n k|off num gen kw]; cbn [line_text line_ok] in *.
  - destruct OK as [N K]. destruct (dec_dig n N) as [D1 E1]. destruct (dec_dig k K) as [D2 E2].
    destruct (dig_split _ D1 E1) as (c & r & Ec & C). destruct (dig_last _ D2 E2) as (m & b & Eb & Bq).
    split; [|split].
    + apply noeol_app; [apply noeol_dig; auto|]. apply noeol_app; [repeat constructor; lia|apply noeol_dig; auto].
    + exists c. eexists. rewrite Ec. split; [reflexivity|auto].
    + apply (strip_ends _ c b (r ++ [32] ++ m)); try lia. rewrite Ec, Eb. cbn [app]. rewrite <- !app_assoc. reflexivity.
  - destruct OK as (N & K & KW). destruct (pad0_dig 10 off N) as (D1 & E1 & _). destruct (pad0_dig 5 gen K) as (D2 & E2 & _).
    destruct (dig_split _ D1 E1) as (c & r & Ec & C).
    split; [|split].
    + apply noeol_app; [apply noeol_dig; auto|]. apply noeol_app; [repeat constructor; lia|].
      apply noeol_app; [apply noeol_dig; auto|]. destruct KW as [-> | ->]; repeat constructor; lia.
    + exists c. eexists. rewrite Ec. split; [reflexivity|auto].
    + destruct KW as [-> | ->].
      * apply (strip_ends _ c 102 (r ++ [32] ++ pad0 5 gen ++ [32])); try lia. rewrite Ec. cbn [app]. rewrite <- !app_assoc. cbn [app]. rewrite <- !app_assoc. reflexivity.
      * apply (strip_ends _ c 110 (r ++ [32] ++ pad0 5 gen ++ [32])); try lia. rewrite Ec. cbn [app]. rewrite <- !app_assoc. cbn [app]. rewrite <- !app_assoc. reflexivity.
Qed.

Definition lines_text (ls : list xline) : bytes := flat_map (fun l => line_text l ++ [10%Z]) ls.

Lemma xref_lines_read ls : forall pre o fuel rest, Forall line_ok ls -> numbered o ls -> (length ls < fuel)%nat ->
  let t := pre ++ [10%Z] ++ lines_text ls ++ W_trailer ++ [10%Z] ++ rest in
  xref_lines fuel t o (next_line t (length pre)) = Ok (ls, (length (pre ++ [10%Z] ++ lines_text ls) + 7)%nat).
Proof.
  induction ls as [|l ls IH]; intros pre o fuel rest F NU LF t; (destruct fuel as [|fuel]; [cbn in LF; lia|]).
  - unfold t. cbn [lines_text flat_map app].
    assert (N : noeol W_trailer) by (repeat constructor; lia).
    pose proof (next_line_nl pre W_trailer rest N ltac:(discriminate)) as NL. cbn [app] in NL. cbn [W_trailer app] in NL |- *. rewrite NL. cbn [xref_lines].
    replace (sub _ _ (S (length (pre ++ [10])))) with [116]. { cbn. rewrite !app_length. reflexivity. }
    symmetry. change (10 :: 116 :: ?x) with ([10] ++ [116] ++ x).
    rewrite app_assoc. apply sub_app_exact; cbn [length]; lia.
  - inversion F as [|? ? OK F']; subst. destruct (line_facts l OK) as (NE & (c & r & Ec & C) & ST).
    unfold t. cbn [lines_text flat_map]. fold (lines_text ls). rewrite <- !app_assoc.
    cbn [app]. change (pre ++ 10%Z :: ?x) with (pre ++ [10%Z] ++ x).
    rewrite next_line_nl; auto; [|rewrite Ec; discriminate]. cbn [xref_lines].
    set (R := lines_text ls ++ W_trailer ++ 10%Z :: rest).
    assert (S1 : sub (pre ++ [10%Z] ++ line_text l ++ 10%Z :: R) (length (pre ++ [10%Z])) (S (length (pre ++ [10%Z]))) = [c]).
    { rewrite Ec, app_assoc. change ((c :: r) ++ 10%Z :: R) with ([c] ++ (r ++ 10%Z :: R)). apply sub_app_exact; cbn [length]; lia. }
    assert (S2 : sub (pre ++ [10%Z] ++ line_text l ++ 10%Z :: R) (length (pre ++ [10%Z])) (length (pre ++ [10%Z]) + length (line_text l)) = line_text l).
    { rewrite app_assoc. apply sub_app_exact; lia. }
    rewrite S1, S2, ST. replace ((48 <=? c) && (c <=? 57)) with true by lia.
    assert (NX : forall o', numbered o' ls ->
      xref_lines fuel (pre ++ [10%Z] ++ line_text l ++ 10%Z :: R) o' (next_line (pre ++ [10%Z] ++ line_text l ++ 10%Z :: R) (length (pre ++ [10%Z]) + length (line_text l)))
      = Ok (ls, (length (pre ++ [10%Z] ++ line_text l ++ [10%Z] ++ lines_text ls) + 7)%nat)).
    { intros o' NU'. specialize (IH (pre ++ [10%Z] ++ line_text l) o' fuel rest F' NU' ltac:(cbn [length] in LF; lia)).
      cbn zeta in IH. rewrite <- !app_assoc in IH. cbn [app] in IH. rewrite <- app_length.
      rewrite <- !app_assoc. cbn [app]. unfold R. rewrite IH. reflexivity. }
    destruct l as [n k|off num gen kw]; cbn [line_text line_ok numbered] in OK, NU |- *.
    + destruct OK as [N K]. destruct (dec_dig n N) as [D1 E1]. destruct (dec_dig k K) as [D2 E2].
      rewrite split_ws_2 by (auto using isdig_ws). rewrite split_ws_nospace by (auto using isdig_ws).
      rewrite !py_int_dec. cbn [of_opt bind]. cbn [line_text] in NX. rewrite NX by auto. cbn [bind]. reflexivity.
    + destruct OK as (N & K & KW). destruct (pad0_dig 10 off N) as (D1 & E1 & _). destruct (pad0_dig 5 gen K) as (D2 & E2 & _).
      rewrite split_ws_2 by (auto using isdig_ws). rewrite split_ws_2 by (auto using isdig_ws).
      replace (split_ws kw) with [kw] by (destruct KW as [-> | ->]; reflexivity).
      rewrite !py_int_pad0 by auto. cbn [of_opt bind]. destruct NU as [-> NU]. cbn [line_text] in NX. rewrite NX by auto. cbn [bind]. reflexivity.
Qed.

(* ---------- the table ---------- *)
Lemma next_token_white pre w v k rest : Forall white w -> tokk v k ->
  selfdel k = true \/ sepstart rest ->
  next_token (pre ++ w ++ v ++ rest) (length pre)
  = (length (pre ++ w), (length (pre ++ w) + length v)%nat, Some k).
Proof.
  intros W T S. replace (length pre) with (length pre + 0)%nat at 1 by lia. rewrite next_token_app.
  unfold next_token. cbn [skipn].
  assert (G : forall i h cur, ntok STbd 1 false h cur i (w ++ v ++ rest)
              = ((i + length w)%nat, (i + length w + length v)%nat, Some k)).
  { clear pre. induction W as [|c w HC W IH]; intros i h cur.
    - cbn [app length]. rewrite T by auto. p3.
    - cbn [app length]. rewrite tbd_white by auto. rewrite IH. p3. }
  rewrite G. cbn [shift3]. rewrite app_length. p3.
Qed.

Lemma find_from_absent c p a : forall i r, ~ In c a ->
  find_from (c :: p) (a ++ (c :: p) ++ r) i = Some (i + length a)%nat.
Proof.
  induction a as [|x a IH]; intros i r N.
  - cbn [app]. replace (find_from (c :: p) (c :: p ++ r) i) with (Some i). { cbn. f_equal. lia. }
    cbn [find_from]. replace (starts (c :: p) (c :: p ++ r)) with true; auto.
    symmetry. apply starts_iff. exists r. reflexivity.
  - cbn [app find_from]. replace (starts (c :: p) (x :: a ++ c :: p ++ r)) with false.
    2:{ symmetry. apply not_true_is_false. intros E. apply starts_iff in E as (q & E). injection E as E1 _. cbn in N. apply N. left. auto. }
    cbn [app] in IH. rewrite IH by (cbn in N; tauto). cbn [length]. f_equal. lia.
Qed.

Lemma find_absent c p pre a r : ~ In c a ->
  find (c :: p) (pre ++ a ++ (c :: p) ++ r) (length pre) = Some (length pre + length a)%nat.
Proof.
  intros N. unfold find. rewrite skipn_app_len, find_from_absent by auto.
  replace (Nat.ltb _ _) with false; auto. symmetry. apply Nat.ltb_ge. rewrite app_length. lia.
Qed.

Lemma line_no_t l : line_ok l -> ~ In 116 (line_text l ++ [10]).
Proof.
  assert (D : forall s, Forall isdig s -> ~ In 116 s).
  { intros s F I. rewrite Forall_forall in F. apply F in I. unfold isdig in I. lia. }
  intros OK I. apply in_app_or in I as [I|[I|[]]]; [|lia].
  destruct l as [n k|off num gen kw]; cbn [line_text line_ok] in *.
  - destruct OK as [N K]. apply in_app_or in I as [I|[I|I]]; [|lia|].
    + eapply D; [|exact I]. apply dec_dig; auto.
    + eapply D; [|exact I]. apply dec_dig; auto.
  - destruct OK as (N & K & KW). apply in_app_or in I as [I|I].
    { eapply D; [|exact I]. apply pad0_dig; auto. }
    apply in_app_or in I as [I|I]; [destruct I as [I|[]]; lia|].
    apply in_app_or in I as [I|I].
    { eapply D; [|exact I]. apply pad0_dig; auto. }
    destruct KW as [-> | ->]; cbn in I; lia.
Qed.

Lemma lines_no_t ls : Forall line_ok ls -> ~ In 116 (lines_text ls).
Proof.
  induction 1 as [|l ls OK F IH]; [cbn; auto|]. unfold lines_text. cbn [flat_map]. intros I.
  apply in_app_or in I as [I|I]; [eapply line_no_t; eauto|auto].
Qed.

(* lines as written and lines as read *)
Lemma map_res_Forall2 {A C} (f : A -> res C) l r : map_res f l = Ok r -> Forall2 (fun a b => f a = Ok b) l r.
Proof.
  revert r. induction l as [|a l IH]; intros r; cbn [map_res].
  - intros E. inversion E. constructor.
  - destruct (f a) eqn:E1; try discriminate. cbn [bind].
    destruct (map_res f l) eqn:E2; try discriminate. cbn [bind]. intros E. inversion E; subst. constructor; auto.
Qed.

Lemma xref_line_ok nf e : elem_ok nf e -> exists l, table_line nf e = Some l /\ line_ok l /\
  xref_line nf e = Ok (line_text l, xe_num e) /\ (exists off g kw, l = XEnt off (xe_num e) g kw) /\
  xtab_check l = true /\ xtab_entry l = in_use_entry e.
Proof.
  intros (N & G & C). unfold table_line, xref_line, in_use_entry. destruct (xe_free e) eqn:EF.
  - destruct C as (n & E & NN). rewrite E. cbn [of_opt bind option_map]. eexists. split; [reflexivity|].
    split; [|split; [|split; [|split]]].
    + cbn. split; auto. split; [lia|left; reflexivity].
    + reflexivity.
    + eauto.
    + reflexivity.
    + destruct (xe_cnt e); reflexivity.
  - destruct C as (n & E & NN). rewrite E. cbn [of_opt bind option_map]. eexists. split; [reflexivity|].
    split; [|split; [|split; [|split]]].
    + cbn. auto.
    + reflexivity.
    + eauto.
    + reflexivity.
    + cbn. destruct (xe_num e =? 0); reflexivity.
Qed.

(* all the lines, from a function giving the line of an element *)
Definition group_lines (f : xelem -> xline) (g : list (Z * list xelem)) : list xline :=
  flat_map (fun a => XSub (fst a) (Z.of_nat (length (snd a))) :: map f (snd a)) g.

Lemma choose_line nf elems : Forall (elem_ok nf) elems ->
  exists f, Forall (fun e => table_line nf e = Some (f e) /\ line_ok (f e) /\
    xref_line nf e = Ok (line_text (f e), xe_num e) /\ (exists off g kw, f e = XEnt off (xe_num e) g kw) /\
    xtab_check (f e) = true /\ xtab_entry (f e) = in_use_entry e) elems.
Proof.
  intros F. exists (fun e => match table_line nf e with Some l => l | None => XSub 0 0 end).
  eapply Forall_impl; [|exact F]. intros e OK. destruct (xref_line_ok nf e OK) as (l & E & R). rewrite E. auto.
Qed.

Lemma lines_numbered f g : forall o, Forall (run_of xe_num) g ->
  Forall (fun e => exists off gn kw, f e = XEnt off (xe_num e) gn kw) (flat_map snd g) ->
  numbered o (group_lines f g).
Proof.
  induction g as [|[n es] g IH]; intros o R F; [exact Logic.I|].
  unfold group_lines. cbn [flat_map fst snd app numbered]. fold (group_lines f g).
  inversion R as [|? ? [_ M] R']; subst. cbn [fst snd] in M. cbn [flat_map snd] in F. apply Forall_app in F as [F1 F2].
  assert (G : forall us m, Forall (fun e => exists off gn kw, f e = XEnt off (xe_num e) gn kw) us ->
     map xe_num us = map (fun k => m + Z.of_nat k) (seq 0 (length us)) ->
     numbered (Some m) (map f us ++ group_lines f g)).
  { clear M F1. induction us as [|u us IHu]; intros m FU MU.
    - cbn [map app]. apply IH; auto.
    - inversion FU as [|? ? (off & gn & kw & E) FU']; subst. cbn [map length seq] in MU. injection MU as M0 M1.
      cbn [map app]. rewrite E. cbn [numbered]. split; [f_equal; lia|]. apply IHu; auto.
      rewrite M1, <- seq_shift, map_map. apply map_ext. intros k. lia. }
  apply G; auto.
Qed.

Lemma sub_text_lines f g : flat_map sub_text (map (fun a => (fst a, map (fun e => line_text (f e)) (snd a))) g) = lines_text (group_lines f g).
Proof.
  induction g as [|[n es] g IH]; auto.
  unfold lines_text, group_lines in *. cbn [map flat_map fst snd]. rewrite IH. cbn [app flat_map]. fold (lines_text).
  rewrite flat_map_app. rewrite app_assoc. f_equal.
  unfold sub_text. cbn [fst snd line_text]. rewrite map_length, <- !app_assoc. do 4 f_equal.
  induction es as [|e es IHe]; auto. cbn [map flat_map]. rewrite IHe. reflexivity.
Qed.

Lemma format_text f elems tr nf txt : Forall (fun e => xref_line nf e = Ok (line_text (f e), xe_num e)) elems ->
  format_xref_table elems tr nf = Ok txt -> exists v, serialize tr = Ok v /\
  txt = W_xref ++ [10] ++ lines_text (group_lines f (group_runs (map (fun x => (x, xe_num x)) elems))) ++ W_trailer ++ [10] ++ v ++ [10].
Proof.
  intros F. unfold format_xref_table. destruct (map_res (xref_line nf) elems) as [lines| |] eqn:EM; try discriminate.
  cbn [bind]. assert (lines = map (fun e => (line_text (f e), xe_num e)) elems).
  { apply map_res_Forall2 in EM. clear -F EM. revert lines EM.
    induction F as [|e elems E F IH]; intros lines EM; inversion EM; subst; auto.
    cbn [map]. f_equal; [congruence|auto]. }
  subst lines. rewrite (group_runs_map (fun e => line_text (f e)) xe_num), sub_text_lines.
  destruct (map _ elems); try discriminate. destruct (serialize tr) as [v| |]; try discriminate. cbn [bind].
  intros E. inversion E. exists v. split; auto.
Qed.

Definition table_pre (ls : list xline) : bytes := W_xref ++ [10] ++ lines_text ls.

Section WithZlib.
Context {ZL : Zlib}.

Lemma read_table ls tr v pre post : Forall line_ok ls -> numbered None ls -> wfv tr -> (exists d, tr = PDict d) ->
  serialize tr = Ok v -> follows ([10] ++ post) ->
  let t := pre ++ table_pre ls ++ W_trailer ++ [10] ++ v ++ [10] ++ post in
  parse_xref_table_raw t (length pre)
  = Ok (Some (mk_xtab (length pre) (length (pre ++ table_pre ls ++ W_trailer ++ [10] ++ v)) ls (rv tr))) /\
  find W_trailer t (length pre) = Some (length (pre ++ table_pre ls)) /\
  sub t (length pre) (length pre + 4) = W_xref /\
  next_token t (length (pre ++ table_pre ls)) =
    (length (pre ++ table_pre ls), length (pre ++ table_pre ls ++ W_trailer), Some TKeyword) /\
  next_token t (length (pre ++ table_pre ls ++ W_trailer)) =
    (length (pre ++ table_pre ls ++ W_trailer ++ [10]), length (pre ++ table_pre ls ++ W_trailer ++ [10] ++ v), Some TDict) /\
  parse_obj v 0 = Ok (rv tr).
Proof.
  intros F NU W (d & Ed) SE FO t.
  destruct (top_direct _ tr (wt_val tr W ltac:(intros; subst; discriminate))) as (v' & k & E' & K & T & P).
  assert (v' = v) by congruence. subst v'. rewrite Ed in K. cbn in K. inversion K. subst k.
  destruct (follows_not_stream _ FO) as [SEP NST].
  assert (S4 : sub t (length pre) (length pre + 4) = W_xref).
  { unfold t, table_pre. rewrite <- !app_assoc. apply sub_app_exact; reflexivity. }
  assert (XL : xref_lines (S (length t)) t None (next_line t (length pre + 4)) = Ok (ls, length (pre ++ table_pre ls ++ W_trailer))).
  { pose proof (xref_lines_read ls (pre ++ W_xref) None (S (length t)) (v ++ [10] ++ post) F NU) as R.
    cbn zeta in R.
    replace ((pre ++ W_xref) ++ [10] ++ lines_text ls ++ W_trailer ++ [10] ++ v ++ [10] ++ post) with t in R
      by (unfold t, table_pre; rewrite <- !app_assoc; reflexivity).
    rewrite app_length in R. change (length W_xref) with 4%nat in R. rewrite R.
    - f_equal. f_equal. unfold table_pre. rewrite !app_length. cbn [length W_trailer W_xref]. lia.
    - unfold t, table_pre. rewrite !app_length.
      assert (L : (length ls <= length (lines_text ls))%nat).
      { clear. induction ls as [|l ls IH]; auto. unfold lines_text. cbn [flat_map length]. fold (lines_text ls). rewrite !app_length. cbn [length]. lia. }
      lia. }
  assert (T2 : next_token t (length (pre ++ table_pre ls ++ W_trailer)) =
    (length (pre ++ table_pre ls ++ W_trailer ++ [10]), length (pre ++ table_pre ls ++ W_trailer ++ [10] ++ v), Some TDict)).
  { pose proof (next_token_white (pre ++ table_pre ls ++ W_trailer) [10] v TDict ([10] ++ post)) as N.
    rewrite <- !app_assoc in N. unfold t. rewrite N; auto.
    - rewrite !app_length. p3.
    - constructor; [unfold white; lia|constructor]. }
  split; [|split; [|split; [|split; [|split]]]]; auto.
  - unfold parse_xref_table_raw. rewrite S4. replace (beqb W_xref W_xref) with true by reflexivity. cbn [negb].
    rewrite XL. cbn [bind]. rewrite T2.
    pose proof (top_parse _ tr v (pre ++ table_pre ls ++ W_trailer ++ [10]) ([10] ++ post) (wt_val tr W ltac:(intros; subst; discriminate)) SE) as TP.
    rewrite <- !app_assoc in TP. unfold t. rewrite TP; auto.
  - unfold t. change W_trailer with (116 :: tl W_trailer). rewrite find_absent.
    + f_equal. rewrite app_length. reflexivity.
    + unfold table_pre. intros H. apply in_app_or in H as [H|H]; [cbn in H; lia|].
      apply in_app_or in H as [H|H]; [cbn in H; lia|]. eapply lines_no_t; eauto.
  - pose proof (next_token_white (pre ++ table_pre ls) [] W_trailer TKeyword ([10] ++ v ++ [10] ++ post)) as N.
    cbn [app] in N. rewrite <- !app_assoc in N. cbn [app] in N. unfold t. cbn [app]. rewrite N; auto.
    + rewrite app_nil_r, !app_length. p3.
    + apply tokk_of_1; auto. intros rest h cur i SS. apply (tok1_keyword 116 (tl W_trailer)); auto.
      * unfold letter; lia.
      * repeat constructor.
      * intros [r Q]. discriminate.
    + right. exists 10. eexists. split; [reflexivity|]. reflexivity.
  - pose proof (top_parse _ tr v [] [] (wt_val tr W ltac:(intros; subst; discriminate)) SE) as TP.
    cbn [app length] in TP. rewrite app_nil_r in TP. apply TP; [left; rewrite Ed; exact Logic.I|discriminate].
Qed.

Lemma group_lines_ok f g : Forall (fun e => line_ok (f e)) (flat_map snd g) -> Forall (run_of xe_num) g ->
  Forall (fun e => 0 <= xe_num e) (flat_map snd g) -> Forall line_ok (group_lines f g).
Proof.
  induction g as [|[n es] g IH]; intros F R N; [constructor|].
  unfold group_lines. cbn [flat_map fst snd app]. fold (group_lines f g). cbn [flat_map snd] in *.
  apply Forall_app in F as [F1 F2]. apply Forall_app in N as [N1 N2]. inversion R as [|? ? [NE M] R']; subst.
  constructor.
  - cbn [line_ok fst snd] in *. split; [|lia]. destruct es as [|e es]; [congruence|].
    inversion N1; subst. cbn [map length seq] in M. injection M as M _. lia.
  - apply Forall_app. split; [|apply IH; auto]. apply Forall_map. exact F1.
Qed.

(* C16 : a table written by format_xref_table is read back *)
Theorem table_roundtrip elems d nf txt : format_xref_table elems (PDict d) nf = Ok txt ->
  Forall (elem_ok nf) elems -> wfv (PDict d) ->
  exists g pr, maximal_runs xe_num elems g /\
    forall pre post, follows (10 :: post) -> exists x,
      parse_xref_table_raw (pre ++ txt ++ post) (length pre) = Ok (Some x) /\
      map Some (xt_lines x) = flat_map (table_lines nf) g /\
      peq (PDict d) (xt_trailer x) /\
      xt_beg x = length pre /\ (xt_end x + 1 = length pre + length txt)%nat /\
      (* as index entries *)
      parse_xref_table (pre ++ txt ++ post) (length pre)
      = Ok (mk_ient 0 0 None None (Some (AInt (Z.of_nat (length pre + pr)))) None None None false
              (Some (Z.of_nat (length pre))) None None None false None
            :: flat_map in_use_entry elems) /\
      (exists q, skipn pr txt = W_trailer ++ [10] ++ q) /\
      (* as a section of a file *)
      forall p len rest startx, read_at p (Z.of_nat (length pre)) len = Ok (pre ++ txt ++ post, length pre, rest) ->
        exists d', read_section p (Z.of_nat (length pre)) (Z.of_nat (length pre) + len) startx
          = Ok (mk_ient 0 0 None None (Some (AInt (Z.of_nat (length pre + pr)))) None None None false
                  (Some (Z.of_nat (length pre))) None None None false None
                :: flat_map in_use_entry elems, d', pre ++ txt ++ post) /\ peq (PDict d) (PDict d').
Proof.
  intros FX F W. destruct (choose_line nf elems F) as (f & FF).
  set (g := group_runs (map (fun x => (x, xe_num x)) elems)).
  pose proof (group_runs_maximal xe_num elems) as MX. fold g in MX.
  destruct (format_text f elems (PDict d) nf txt) as (v & SE & ET); auto.
  { eapply Forall_impl; [|exact FF]. intros a (? & ? & ? & ? & ? & ?); auto. }
  fold g in ET. set (ls := group_lines f g) in *.
  destruct MX as (EE & RU & GA).
  assert (LO : Forall line_ok ls).
  { apply group_lines_ok; auto; rewrite <- EE.
    - eapply Forall_impl; [|exact FF]. intros a (? & ? & ? & ? & ? & ?); auto.
    - eapply Forall_impl; [|exact F]. intros a (A & _); auto. }
  assert (NU : numbered None ls).
  { apply lines_numbered; auto. rewrite <- EE. eapply Forall_impl; [|exact FF]. intros a (? & ? & ? & ? & ? & ?); auto. }
  assert (CK : forallb xtab_check ls = true).
  { apply forallb_forall. intros l I. unfold ls, group_lines in I. apply in_flat_map in I as (a & Ia & I).
    destruct I as [<-|I]; [reflexivity|]. apply in_map_iff in I as (e & <- & I).
    rewrite Forall_forall in FF. apply FF. rewrite EE. apply in_flat_map. eauto. }
  assert (EN : flat_map xtab_entry ls = flat_map in_use_entry elems).
  { rewrite EE in FF |- *. unfold ls. clear -FF. induction g as [|[n es] g IH]; auto.
    unfold group_lines in *. cbn [flat_map fst snd app] in *. apply Forall_app in FF as [F1 F2].
    rewrite !flat_map_app, IH by auto. cbn [xtab_entry app]. f_equal.
    clear -F1. induction es as [|e es IH]; auto. inversion F1; subst. cbn [map flat_map]. rewrite IH by auto.
    f_equal. match goal with H : _ /\ _ |- _ => destruct H as (? & ? & ? & ? & ? & ?) end; auto. }
  assert (TE : table_pre ls ++ W_trailer ++ [10] ++ v ++ [10] = txt).
  { rewrite ET. unfold table_pre. rewrite <- !app_assoc. reflexivity. }
  exists g, (length (table_pre ls)). split; [split; auto|]. intros pre post FO.
  destruct (read_table ls (PDict d) v pre post LO NU W ltac:(eauto) SE FO) as (P1 & P2 & P3 & P4 & P5 & P6).
  replace (pre ++ table_pre ls ++ W_trailer ++ [10] ++ v ++ [10] ++ post) with (pre ++ txt ++ post) in *
    by (rewrite <- TE, <- !app_assoc; reflexivity).
  assert (PX : parse_xref_table (pre ++ txt ++ post) (length pre)
      = Ok (mk_ient 0 0 None None (Some (AInt (Z.of_nat (length pre + length (table_pre ls))))) None None None false
              (Some (Z.of_nat (length pre))) None None None false None
            :: flat_map in_use_entry elems)).
  { unfold parse_xref_table. rewrite P1. cbn [bind xt_lines]. rewrite CK, EN, P2. cbn [znat]. rewrite app_length. reflexivity. }
  eexists. split; [exact P1|]. cbn [xt_lines xt_trailer xt_beg xt_end].
  split; [|split; [|split; [|split; [|split; [|split]]]]]; auto.
  - clear -FF EE. rewrite EE in FF. unfold ls. clear EE. induction g as [|[n es] g IH]; auto.
    unfold group_lines in *. cbn [flat_map fst snd] in *. apply Forall_app in FF as [F1 F2].
    rewrite map_app, IH by auto. f_equal. unfold table_lines. cbn [map fst snd]. f_equal. rewrite map_map.
    clear -F1. induction es as [|e es IH]; auto. inversion F1; subst. cbn [map]. rewrite IH by auto. f_equal. symmetry. match goal with H : _ /\ _ |- _ => destruct H end; auto.
  - apply wfv_peq; auto.
  - rewrite <- TE, !app_length. cbn [length]. lia.
  - rewrite <- TE. rewrite skipn_app_len. eexists. reflexivity.
  - intros p len rest startx RA. unfold read_section.
    replace (Z.of_nat (length pre) + len - Z.of_nat (length pre)) with len by lia. rewrite RA. cbn [bind].
    rewrite P3. replace (beqb W_xref W_xref) with true by reflexivity. rewrite PX. cbn [bind]. rewrite P2. cbn [znat].
    replace (Z.of_nat (length (pre ++ table_pre ls)) <? 0) with false by lia. rewrite Nat2Z.id, P4, P5.
    replace (sub _ _ _) with v.
    2:{ symmetry. replace (pre ++ txt ++ post) with ((pre ++ table_pre ls ++ W_trailer ++ [10]) ++ v ++ [10] ++ post)
          by (rewrite <- TE, <- !app_assoc; reflexivity). apply sub_app_exact; auto. rewrite !app_length. lia. }
    rewrite P6. cbn [bind rv]. eexists. split; [reflexivity|]. apply (wfv_peq (PDict d)); auto.
Qed.

End WithZlib.
