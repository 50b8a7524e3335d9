(* The description of a document, and the index of hybrid-reference files *)
From Coq Require Import String QArith Qcanon.
From Verif Require Import PyBase Model_Filters Model_Objects Model_Filestruct Model_Text Model_Docstruct Model_Api Model_Graphics Model_Structure.
From Verif Require Import Spec_Objects Spec_Filters Spec_Filestruct Spec_Docstruct Spec_Pages Spec_Calls Spec_Structure.
From Verif Require Import Facts_Base Facts_Revision Facts_Index Facts_Chain Facts_Doc Facts_Edit Facts_Pages Facts_Checks Facts_Calls.
From Coq Require Import ZifyBool ZifyNat.
Open Scope Z_scope.

(* ---------- paper ---------- *)
Lemma kind_found x y l : forall p, (paper_kind x y l p = p /\ forall k w h, In (k, (w, h)) l -> ~ (x = qc w /\ y = qc h)) \/
  exists w h, In (paper_kind x y l p, (w, h)) l /\ x = qc w /\ y = qc h.
Proof.
  induction l as [|[t [w h]] l IH]; intro p; cbn [paper_kind]; [left; split; [reflexivity|intros k w h []]|].
  destruct (Qc_eq_bool (qc w) x && Qc_eq_bool (qc h) y) eqn:E.
  - apply andb_prop in E as [E1 E2]. apply Qc_eq_bool_correct in E1. apply Qc_eq_bool_correct in E2.
    right. destruct (IH t) as [[Q _]|(w' & h' & I & X)]; [rewrite Q; exists w, h; split; [now left|auto]|exists w', h'; split; [now right|exact X]].
  - destruct (IH p) as [[Q N]|(w' & h' & I & X)]; [left; split; [exact Q|]|right; exists w', h'; split; [now right|exact X]].
    intros k w' h' [I|I] [X Y]; [|eapply N; eauto]. injection I as <- <- <-. subst x y.
    assert (R : forall q, Qc_eq_bool q q = true) by (intro q; unfold Qc_eq_bool; destruct (Qc_eq_dec q q); congruence).
    rewrite !R in E. discriminate.
Qed.
Lemma sizes_of k w h : In (k, (w, h)) PAPER_SIZES -> paper_of k w h.
Proof.
  intro I. apply paper_spec. unfold PAPER_SIZES in I. cbn [In] in I.
  repeat (destruct I as [I|I]; [injection I as <- <- <-; reflexivity|]). contradiction.
Qed.
Lemma of_sizes k w h : paper_of k w h -> In (k, (w, h)) PAPER_SIZES.
Proof.
  intro P. apply paper_spec in P. revert P. generalize PAPER_SIZES. induction l as [|[k' v] l IH]; cbn [paper_size]; [discriminate|].
  destruct (beqb k k') eqn:Q; [apply beqb_eq in Q; subst; intro E; left; congruence|right; auto].
Qed.
Lemma mm_whole x : whole_mm x (mm_of x).
Proof.
  unfold whole_mm, mm_of. destruct x as [[n d] C]. cbn [this Qnum Qden]. clear C. set (D := Zpos d * 360). assert (DP : 0 < D) by (unfold D; lia).
  destruct (Z.le_gt_cases 0 n) as [H|H]; [left|right]; unfold Qle, Qlt, Qmult, inject_Z; cbn [Qnum Qden]; rewrite ?Pos2Z.inj_mul, ?Z.mul_1_r; fold D.
  - pose proof (Z.quot_rem' (n * 127) D) as E. pose proof (Z.rem_bound_pos (n * 127) D ltac:(lia) DP). split; [lia|]. split; nia.
  - pose proof (Z.quot_rem' (n * 127) D) as E. pose proof (Z.rem_bound_neg_pos (n * 127) D) as X. split; [lia|]. split; nia.
Qed.
Lemma hundredths_nearest x : nearest_hundredth x (hundredths x).
Proof.
  unfold hundredths. destruct x as [[n d] C]. cbn [this Qnum Qden]. set (D := Zpos d * 72). assert (DP : 0 < D) by (unfold D; lia).
  pose proof (Z.div_mod (n * 100) D ltac:(lia)) as E. pose proof (Z.mod_pos_bound (n * 100) D DP) as M. set (f := n * 100 / D) in *. set (r := (n * 100) mod D) in *.
  assert (EV : Z.even (f + 1) = negb (Z.even f)) by (rewrite Z.even_add; cbn; destruct (Z.even f); reflexivity).
  constructor; unfold Qle, Qeq, Qmult, Qminus, Qopp, Qplus, inject_Z; cbn [Qnum Qden this]; rewrite ?Pos2Z.inj_mul; fold D;
    destruct (2 * r <? D) eqn:Q1; [| destruct (D <? 2 * r) eqn:Q2; [|destruct (Z.even f) eqn:Q3]| | destruct (D <? 2 * r) eqn:Q2; [|destruct (Z.even f) eqn:Q3]| | destruct (D <? 2 * r) eqn:Q2; [|destruct (Z.even f) eqn:Q3]]; try nia.
  all: try (intros [T|T]; nia); try (intros _; rewrite ?EV, ?Q3; auto).
Qed.
Lemma decimals_text h : 0 <= h -> hundredths_text h (decimals h).
Proof.
  intros H. unfold decimals. assert (E : h = 100 * (h / 100) + 10 * (h mod 100 / 10) + h mod 10).
  { pose proof (Z.div_mod h 100 ltac:(lia)). pose proof (Z.div_mod (h mod 100) 10 ltac:(lia)). replace (h mod 10) with ((h mod 100) mod 10); [lia|]. symmetry. apply (Znumtheory.Zmod_div_mod 10 100 h); [lia|lia|exists 10; reflexivity]. }
  pose proof (Z.mod_pos_bound h 100 ltac:(lia)). pose proof (Z.mod_pos_bound h 10 ltac:(lia)).
  assert (0 <= h mod 100 / 10 < 10) by (split; [apply Z.div_pos; lia|apply Z.div_lt_upper_bound; lia]).
  assert (0 <= h / 100) by (apply Z.div_pos; lia).
  destruct (h mod 10 =? 0) eqn:Q.
  - replace h with (100 * (h / 100) + 10 * (h mod 100 / 10)) at 1 by lia. apply Ht_one; lia.
  - rewrite E at 1. apply Ht_two; lia.
Qed.
Lemma float_hundredths h : hundredths_text h (float_text h).
Proof.
  unfold float_text. destruct (h <? 0) eqn:Q; [|apply decimals_text; lia]. replace h with (- - h) at 1 by lia. apply Ht_neg; [lia|apply decimals_text; lia].
Qed.
Lemma inches_of x : inches x (float_text (hundredths x)).
Proof. exists (hundredths x). split; [apply hundredths_nearest|apply float_hundredths]. Qed.
Lemma kind_named x y : named_paper x y (paper_kind x y PAPER_SIZES (B "unknown")).
Proof.
  unfold named_paper.
  destruct (kind_found x y PAPER_SIZES (B "unknown")) as [[-> N]|(w & h & I & X)].
  - right. split; [reflexivity|]. intros name w h P. apply (N name). now apply of_sizes.
  - left. exists w, h. split; [now apply sizes_of|exact X].
Qed.
Lemma paper_named m x y : sides m x y -> exists k, paper m = Ok k /\ paper_text x y k.
Proof.
  intros (a & b & c & e & qa & qb & qcc & qe & -> & A & C & D & E & -> & ->). unfold paper, corner. cbn [nth_error of_opt bind].
  rewrite D, A, E, C. cbn [bind]. eexists. split; [reflexivity|]. do 5 eexists. split; [apply mm_whole|]. split; [apply mm_whole|]. split; [apply inches_of|]. split; [apply inches_of|].
  split; [apply kind_named|]. rewrite <- ?app_assoc. reflexivity.
Qed.

Section WithZlib.
Context {ZL : Zlib}.

Lemma version_headed d h F c cat vs : coherent d -> headed d h F -> catalog_at d c cat -> declared h cat vs ->
  exists v d1, version d = Ok (v, d1) /\ greatest vs v /\ read_only d d1.
Proof.
  intros C (L & AS & (r & ->) & dt & l & ED & EF) CA DE. unfold version, fdata_at. rewrite ED. cbn [pyget pyidx].
  assert (G : pyget (dt :: l) 0 = Ok dt) by (apply pyget_cell_0 || reflexivity). rewrite G. cbn [bind]. rewrite EF. cbn [of_opt bind].
  destruct (single_at (B "%PDF-" ++ h ++ r) 5 3) as (n & R); [rewrite !app_length; cbn; lia|lia|]. change (Z.of_nat 5) with 5 in R. rewrite R. cbn [bind].
  assert (S5 : sub (B "%PDF-" ++ h ++ r) 5 (5 + 3) = h).
  { unfold sub. change (B "%PDF-" ++ h ++ r) with (37 :: 80 :: 68 :: 70 :: 45 :: h ++ r). cbn [skipn]. replace (5 + 3 - 5)%nat with (length h) by lia. rewrite firstn_app, Nat.sub_diag, firstn_all. cbn [firstn]. apply app_nil_r. }
  rewrite S5. destruct (catalog_read d c cat C CA) as (g & dc & EC & RC). rewrite EC. cbn [bind].
  assert (AH : ascii h = Ok h).
  { unfold ascii. replace (is_ascii h) with true; [reflexivity|]. symmetry. unfold is_ascii. apply forallb_forall. intros z I. rewrite Forall_forall in AS. specialize (AS z I). lia. }
  unfold cat_version. change K_Version with (B "/Version"). destruct DE as [[N ->]|(v & V & ->)].
  - rewrite N. cbn [bind]. rewrite AH. cbn [bind]. exists h, dc. split; [reflexivity|]. split; [|exact RC]. split; [now left|]. intros z [<-|[]] [(a & b & E)|(p & a & b & a' & b' & E1 & E2 & LT)].
    + apply (f_equal (@length Z)) in E. rewrite app_length in E. cbn in E. lia.
    + rewrite E1 in E2. apply app_inv_head in E2. injection E2 as E2 _. lia.
  - rewrite V. cbn [skipn bind]. rewrite AH. cbn [bind]. exists (if str_ltb h v then v else h), dc. split; [reflexivity|]. split; [|exact RC]. now apply smax_greatest.
Qed.

Lemma encrypted_spec d td : coherent d -> value d 0 = Ok (PDict td) -> (protected td \/ unprotected td) ->
  exists b d1, encrypted d = Ok (b, d1) /\ (b = true <-> protected td) /\ read_only d d1.
Proof.
  intros C V P. unfold encrypted, trailer. destruct (read_ok d 0 0 _ C ltac:(lia) V) as (d1 & G & R). rewrite G. cbn [bind].
  unfold item_opt. unfold protected, unprotected in *. change K_Encrypt with (B "/Encrypt"). destruct P as [P|P].
  - exists true, d1. assert (T : obj_truthy (match dget (B "/Encrypt") td with Some v => v | None => PNone end) = true).
    { destruct P as [(g & n & -> & N)|(x & y & ->)]; cbn [obj_truthy]; [|reflexivity]. lia. }
    split; [cbn; cbn in T; rewrite T; reflexivity|]. split; [tauto|exact R].
  - rewrite P. cbn [bind obj_truthy]. exists false, d1. split; [reflexivity|]. split; [|exact R]. split; [discriminate|]. intros [(g & n & E & _)|(x & y & E)]; congruence.
Qed.

Lemma fits_one t : fits 1 t.
Proof.
  revert t. apply (ptree_rect2 (fits 1)); [intros; constructor|]. intros o nd kids IH. constructor; [exact IH|]. intros pre k post _. cbv zeta. lia.
Qed.

Theorem structure_ro d h F t c cat vs td hy lin x rest m sx sy fuel base :
  coherent d -> headed d h F -> has_tree d t -> (depth t < fuel)%nat -> catalog_at d c cat -> declared h cat vs ->
  dget K_Count (tdict t) = Some (PInt (Z.of_nat (length (leaves t)))) ->
  value d 0 = Ok (PDict td) -> (protected td \/ unprotected td) -> marked d hy -> linearized (PvSingle F) = Ok lin ->
  leaves t = x :: rest -> attribute base x K_MediaBox (Some m) -> sides m sx sy ->
  exists a base' d', structure fuel d base = Ok (a, base', d') /\ read_only d d' /\
    greatest vs (a_version a) /\ a_pages a = PInt (Z.of_nat (length (leaves t))) /\
    a_revisions a = Z.of_nat (length (d_index d)) - 1 /\ (a_encrypted a = true <-> protected td) /\
    a_hybrid a = hy /\ (a_linearized a = true <-> exists l, lin = Some l) /\ paper_text sx sy (a_paper a).
Proof.
  intros C HD HT DT CA DE CO V P HY LI LV AT SD.
  destruct (version_headed d h F c cat vs C HD CA DE) as (v & d1 & E1 & G1 & R1).
  assert (NP : exists d2, number_pages d1 = Ok (PInt (Z.of_nat (length (leaves t))), d2) /\ read_only d1 d2).
  { pose proof (has_tree_ro _ _ _ R1 HT) as (c1 & cat1 & CA1 & _ & _ & PG & HO & (o & nd & kids & Et)). unfold number_pages.
    destruct (catalog_read d1 c1 cat1 (ro_coherent _ _ R1) CA1) as (g & dc & EC & RC). rewrite EC. cbn [bind item]. rewrite PG. cbn [of_opt bind].
    rewrite Et in HO, CO |- *. inversion HO as [|o' n nd' kids' PT]; subst. cbn [tref tdict] in *.
    destruct (points_read dc o n _ (ro_coherent _ _ RC) (points_ro _ _ _ _ _ RC PT)) as (dn & GN & RN). rewrite GN. cbn [bind item]. rewrite CO. cbn [of_opt bind].
    exists dn. split; [reflexivity|]. eapply read_only_trans; eauto. }
  destruct NP as (d2 & E2 & R2). pose proof (read_only_trans _ _ _ R1 R2) as R12.
  destruct (encrypted_spec d2 td (ro_coherent _ _ R2) ltac:(rewrite (ro_values _ _ R12); [exact V|lia]) P) as (b & d3 & E3 & G3 & R3).
  pose proof (read_only_trans _ _ _ R12 R3) as R13.
  destruct (pages_first 1 t fuel d3 base ltac:(lia) (ro_coherent _ _ R13) (has_tree_ro _ _ _ R13 HT) DT (fits_one t)) as (ps & base' & d4 & E4 & R4 & VW).
  rewrite LV in VW. cbn [firstn] in VW. inversion VW as [|p x' ps' l' VP VN]; subst. inversion VN; subst. apply attribute_spec in AT.
  destruct (paper_named m sx sy SD) as (k & EK & NK).
  unfold structure. rewrite E1. cbn [bind]. rewrite E2. cbn [bind]. rewrite E3. cbn [bind].
  assert (HY3 : hybrid d3 = Ok hy).
  { unfold hybrid. rewrite (ro_index _ _ R13). destruct HY as [LI1|r0 row rs e EI CE]; [destruct (d_index d) as [|? [|? ?]]; [reflexivity|reflexivity|cbn in LI1; lia]|]. rewrite EI, (proj2 (Facts_Revision.pyget_cell _ 0 _ ltac:(lia)) CE). reflexivity. }
  rewrite HY3. cbn [bind].
  destruct HD as (_ & _ & _ & dt & l & ED & EF). assert (F3 : fdata_at d3 0 = Ok (PvSingle F)) by (unfold fdata_at; rewrite (ro_data _ _ R13), ED; cbn; rewrite EF; reflexivity).
  rewrite F3. cbn [bind]. rewrite LI. cbn [bind]. unfold page_layouts. change (Z.of_nat 1) with 1 in E4. rewrite E4. cbn [bind map_res]. unfold layout_of.
  rewrite (VP K_MediaBox), <- AT. cbn [of_opt bind nth_error fst]. rewrite EK. cbn [bind].
  eexists _, _, _. split; [reflexivity|]. cbn [a_version a_pages a_revisions a_encrypted a_hybrid a_linearized a_paper].
  split; [exact (read_only_trans _ _ _ R13 R4)|]. split; [exact G1|]. split; [reflexivity|]. split; [unfold updates; rewrite (ro_index _ _ R12); reflexivity|].
  split; [exact G3|]. split; [reflexivity|]. split; [|exact NK].
  destruct lin as [[|a lin]|].
  - exfalso. unfold linearized in LI. destruct (read_at (PvSingle F) 8 1016) as [[[tt a0] z]| |]; cbn [bind] in LI; try discriminate.
    destruct (next_token tt a0) as [[i1 j1] t1]. destruct (next_token tt j1) as [[i2 j2] t2]. destruct (next_token tt j2) as [[i3 j3] t3]. destruct (next_token tt j3) as [[i4 j4] t4]. destruct (next_token tt j4) as [[i5 j5] [[]|]]; try discriminate.
    destruct (parse_obj _ 0) as [oo| |]; cbn [bind] in LI; try discriminate. destruct oo; try discriminate. destruct (dhas K_Linearized d0) eqn:X; [|discriminate]. injection LI as ->. discriminate X.
  - split; [eauto|reflexivity].
  - split; [discriminate|]. intros [l0 X]. discriminate X.
Qed.
Theorem structure_spec d h F t c cat vs td hy lin x rest m sx sy fuel base :
  coherent d -> headed d h F -> has_tree d t -> (depth t < fuel)%nat -> catalog_at d c cat -> declared h cat vs ->
  dget K_Count (tdict t) = Some (PInt (Z.of_nat (length (leaves t)))) ->
  value d 0 = Ok (PDict td) -> (protected td \/ unprotected td) -> marked d hy -> linearized (PvSingle F) = Ok lin ->
  leaves t = x :: rest -> attribute base x K_MediaBox (Some m) -> sides m sx sy ->
  exists a base' d', structure fuel d base = Ok (a, base', d') /\ same_values d d' /\
    greatest vs (a_version a) /\ a_pages a = PInt (Z.of_nat (length (leaves t))) /\
    a_revisions a = Z.of_nat (length (d_index d)) - 1 /\ (a_encrypted a = true <-> protected td) /\
    a_hybrid a = hy /\ (a_linearized a = true <-> exists l, lin = Some l) /\ paper_text sx sy (a_paper a).
Proof.
  intros C HD HT DT CA DE CO V P HY LI LV AT SD.
  destruct (structure_ro d h F t c cat vs td hy lin x rest m sx sy fuel base C HD HT DT CA DE CO V P HY LI LV AT SD) as (a & base' & d' & E & R & Q).
  exists a, base', d'. split; [exact E|]. split; [exact (ro_values _ _ R)|exact Q].
Qed.
End WithZlib.

(* ---------- hybrid sections ---------- *)
Lemma ascending_rows nb secs : 0 <= nb -> Forall (fun s => Forall (fun o => ok_num nb (n_num o)) (tl s)) secs ->
  forall done have m ver prev H, related nb m H -> ascending prev secs ->
  exists rows, build_rows done have m ver prev secs = Ok (rev (if have then m :: done else done) ++ rows) /\
    length rows = length secs /\
    forall k row sec, nth_error rows k = Some row -> nth_error secs k = Some sec ->
      exists t es, sec = t :: es /\ row_ok nb row (ver + 1 + Z.of_nat k) t (fun n => history n (ver + 1) (H n) (firstn (S k) secs)).
Proof.
  intros NB F. induction F as [|s secs FS F IH]; intros done have m ver prev H RL INC.
  - exists []. cbn [build_rows]. rewrite app_nil_r. split; auto. split; auto. intros [|k] row sec E; discriminate.
  - destruct INC as (t & es & p & -> & PT & LT & INC). cbn [tl] in FS.
    cbn [build_rows]. unfold pos_int. rewrite PT. cbn [bind]. replace (prev <? p) with true by lia.
    destruct m as [|m0 m']; [destruct RL as [L _]; cbn in L; lia|]. cbn [nth_error of_opt bind].
    set (m := m0 :: m') in *. set (t' := Model_Filestruct.SDict _).
    destruct (put_entries_ok nb (ver + 1) es NB FS (lset m 0 t') H (lset_related nb m H t' NB RL)) as (m2 & E2 & Z2 & R2).
    rewrite E2. cbn [bind].
    destruct (IH (if have then m :: done else done) true m2 (ver + 1) p _ R2 INC) as (rows & E3 & L3 & R3).
    exists (m2 :: rows). split; [rewrite E3; cbn [rev]; rewrite <- app_assoc; reflexivity|]. split; [cbn [length]; lia|].
    intros [|k] row sec EK ES; cbn [nth_error] in EK, ES.
    + injection EK as <-. injection ES as <-. exists t, es. split; auto. split.
      * rewrite Z2. cbn [lset nth_error]. unfold t'. replace (ver + 1 + Z.of_nat 0) with (ver + 1) by lia. reflexivity.
      * cbn [firstn history]. exact R2.
    + destruct (R3 k row sec EK ES) as (t1 & es1 & -> & RO1 & RO2). exists t1, es1. split; auto.
      replace (ver + 1 + Z.of_nat (S k)) with (ver + 1 + 1 + Z.of_nat k) by lia. split; auto.
Qed.

(* the sections the code keeps, and the sections of the format: same trailer, same entries *)
Definition alike (a b : list ient) : Prop :=
  exists t es es', a = t :: es /\ b = t :: es' /\ forall nb n, ok_num nb n -> filter (fun e => n_num e =? n) es = filter (fun e => n_num e =? n) es'.
Lemma filter_filter {A} (p q : A -> bool) l : filter p (filter q l) = filter (fun x => q x && p x) l.
Proof. induction l as [|x l IH]; cbn [filter]; [reflexivity|]. destruct (q x) eqn:Q; cbn [filter andb]; [destruct (p x); now rewrite IH|exact IH]. Qed.
Lemma combined_same tes xes nb n :
  (forall e, In e tes -> 0 < n_num e -> filter (fun x => n_num x =? n_num e) tes = [e] /\ filter (fun x => n_num x =? n_num e) xes = [e]) ->
  ok_num nb n -> filter (fun e => n_num e =? n) xes = filter (fun e => n_num e =? n) (combined tes xes).
Proof.
  intros R ON. unfold combined. rewrite filter_app, !filter_filter.
  assert (X2 : filter (fun x => negb ((0 <? n_num x) && defines tes (n_num x)) && (n_num x =? n)) xes =
               if (0 <? n) && defines tes n then [] else filter (fun x => n_num x =? n) xes).
  { clear R. induction xes as [|x xes IH]; cbn [filter]; [now destruct ((0 <? n) && defines tes n)|]. rewrite IH. destruct (Z.eqb_spec (n_num x) n) as [E|E].
    - rewrite E. destruct ((0 <? n) && defines tes n); reflexivity.
    - rewrite andb_false_r. reflexivity. }
  rewrite X2. destruct ((0 <? n) && defines tes n) eqn:D.
  - apply andb_prop in D as [D1 D2]. unfold defines in D2. apply existsb_exists in D2 as (e & I & E). apply Z.eqb_eq in E. subst n.
    destruct (R e I ltac:(lia)) as [R1 R2]. rewrite R2, app_nil_r. rewrite <- R1. apply filter_ext. intro a. destruct (Z.eqb_spec (n_num a) (n_num e)); lia.
  - replace (filter (fun x => (0 <? n_num x) && (n_num x =? n)) tes) with (@nil ient); [reflexivity|]. symmetry.
    assert (G : forall x, In x tes -> (0 <? n_num x) && (n_num x =? n) = false).
    { intros x I. destruct ((0 <? n_num x) && (n_num x =? n)) eqn:Q; [|reflexivity]. exfalso. assert (defines tes n = true) by (apply existsb_exists; exists x; split; [exact I|lia]). lia. }
    clear -G. induction tes as [|x tes IH]; cbn [filter]; [reflexivity|]. rewrite (G x (or_introl eq_refl)). apply IH. intros; apply G; now right.
Qed.
Lemma merge_sections secs m : sections secs m -> repeated secs -> forall acc, exists m0,
  hybrid_merge acc secs = Ok (rev acc ++ m0) /\ Forall2 alike m0 m /\
  (forall P : list ient -> Prop, (forall t es, P (t :: es) -> forall p, P (with_pos p (with_stm true t) :: es)) -> Forall P secs -> Forall P m0).
Proof.
  induction 1 as [|t es r m ST S IH|xt xes t tes r m SX ST S IH]; intros RP acc.
  - exists []. cbn [hybrid_merge]. rewrite app_nil_r. repeat split; auto.
  - inversion RP as [|? ? ? _ RP'|? ? ? ? ? _ SB]; subst; [|inversion S; congruence].
    destruct (IH RP' ((t :: es) :: acc)) as (m0 & E & F & W). exists ((t :: es) :: m0). cbn [hybrid_merge]. rewrite ST, E. cbn [rev]. rewrite <- app_assoc. split; [reflexivity|]. split; [constructor; [exists t, es, es; auto|exact F]|].
    intros P HP FP. inversion FP; subst. constructor; auto.
  - inversion RP as [|? ? ? ? RP'|? ? ? ? ? _ _ RE RP']; subst; [inversion RP'; subst; congruence|].
    destruct (IH RP' ((with_pos (n_pos t) (with_stm true xt) :: xes) :: acc)) as (m0 & E & F & W). exists ((with_pos (n_pos t) (with_stm true xt) :: xes) :: m0).
    cbn [hybrid_merge]. rewrite SX, ST, E. cbn [rev]. rewrite <- app_assoc. split; [reflexivity|]. split.
    + constructor; [|exact F]. eexists _, _, _. split; [reflexivity|]. split; [reflexivity|]. intros nb n ON. eapply combined_same; eauto.
    + intros P HP FP. inversion FP as [|? ? F1 F2]; subst. inversion F2; subst. constructor; auto.
Qed.
Lemma alike_history nb n : ok_num nb n -> forall a b, Forall2 alike a b -> forall k h, history n k h a = history n k h b.
Proof.
  intros ON a b F. induction F as [|x y a b (t & es & es' & -> & -> & S) F IH]; intros k h; cbn [history]; [reflexivity|].
  unfold remember_all. cbn [tl]. rewrite (S nb n ON). apply IH.
Qed.
Lemma alike_firstn k : forall a b, Forall2 alike a b -> Forall2 alike (firstn k a) (firstn k b).
Proof. induction k as [|k IH]; intros a b F; [constructor|]. destruct F; cbn [firstn]; constructor; auto. Qed.

Theorem hybrid_rows chrono m nxt nb idx : 0 <= nb -> sections (rev chrono) m -> repeated (rev chrono) -> ascending 0 m ->
  Forall (Forall (fun e => n_next e = None)) chrono ->
  Forall (fun s => Forall (fun o => ok_num nb (n_num o)) (tl s)) chrono ->
  build_index chrono nxt nb = Ok idx ->
  length idx = length m /\
  exists raw, length raw = length m /\
    forall k row sec, nth_error idx k = Some row -> nth_error m k = Some sec ->
      length row = Z.to_nat (nb + 2) /\
      (exists t es c, sec = t :: es /\ nth_error row 0 = Some c /\
         completed raw nxt (Model_Filestruct.SDict (with_dver (Some (Z.of_nat k)) (with_over (Some (Z.of_nat k)) t))) c) /\
      (exists rrow, nth_error raw k = Some rrow /\
         forall n, ok_num nb n -> let c := cell_of (history n 0 [] (firstn (S k) m)) in
           pyget rrow n = Ok c /\ exists c', pyget row n = Ok c' /\ completed raw nxt c c').
Proof.
  intros NB SE RP INC FN FO E. unfold build_index in E.
  destruct (merge_sections _ _ SE RP []) as (m0 & EM & AL & W). rewrite EM in E. cbn [rev app bind] in E.
  assert (FO' : Forall (fun s => Forall (fun o => ok_num nb (n_num o)) (tl s)) m0) by (apply W; [intros t es H p; exact H|apply Forall_rev; auto]).
  assert (FN' : Forall (Forall (fun e => n_next e = None)) m0).
  { apply W; [|apply Forall_rev; auto]. intros t es H p. inversion H; subst. constructor; [destruct t; exact H2|auto]. }
  assert (INC0 : ascending 0 m0).
  { clear - AL INC. revert INC. generalize 0. induction AL as [|x y a b (t & es & es' & -> & -> & S) F IH]; intros z INC; cbn [ascending] in *; [exact Logic.I|].
    destruct INC as (t0 & e0 & p & Q & P & L & INC). injection Q as <- <-. exists t, es, p. auto. }
  assert (LM : length m0 = length m) by (clear - AL; induction AL; cbn; congruence).
  assert (RL : related nb (repeat SNone (Z.to_nat (nb + 2))) (fun _ => [])).
  { split; [rewrite repeat_length; lia|]. intros n N. split; [|constructor].
    destruct (pyidx_ok (repeat SNone (Z.to_nat (nb + 2))) nb n NB) as (i & PI & I1 & I2); auto; [rewrite repeat_length; lia|].
    rewrite (pyget_slot _ _ _ PI). rewrite repeat_length in I1. rewrite (nth_error_nth' _ SNone) by (rewrite repeat_length; lia).
    rewrite nth_repeat. reflexivity. }
  destruct (ascending_rows nb m0 NB FO' [] false (repeat SNone (Z.to_nat (nb + 2))) (-1) 0 _ RL INC0) as (rows & EB & LB & RB).
  rewrite EB in E. cbn [rev app bind] in E.
  destruct (map_res_nth _ _ _ E) as [L N]. split; [lia|].
  exists rows. split; [lia|]. intros k row sec EK ES.
  assert (K : (k < length rows)%nat) by (rewrite <- L; apply nth_error_Some; congruence).
  destruct (nth_error rows k) as [rrow|] eqn:ER; [|apply nth_error_None in ER; lia].
  destruct (N _ _ ER) as (row' & EK' & MR). assert (row' = row) by congruence. subst row'.
  destruct (map_res_nth _ _ _ MR) as [LR NR].
  destruct (Facts_Pages.Forall2_nth _ _ _ AL k sec ES) as (sec0 & ES0 & (t & es & es' & -> & -> & _)).
  destruct (RB k rrow _ ER ES0) as (t1 & es1 & Q & R0 & RR). injection Q as <- <-.
  replace (-1 + 1 + Z.of_nat k) with (Z.of_nat k) in R0 by lia. change (-1 + 1) with 0 in RR.
  assert (NT : n_next t = None).
  { apply nth_error_In in ES0. rewrite Forall_forall in FN'. specialize (FN' _ ES0). inversion FN'; auto. }
  split; [destruct RR as [LL _]; lia|]. split.
  - destruct (NR _ _ R0) as (c & EC & CC). exists t, es', c. split; auto. split; auto.
    cbn [complete_slot] in CC. destruct (complete rows nxt _) as [y| |] eqn:CE; try discriminate. cbn [bind] in CC. inversion CC.
    eapply complete_ok; eauto.
  - exists rrow. split; auto. intros n ON c.
    assert (HE : history n 0 [] (firstn (S k) m) = history n 0 [] (firstn (S k) m0)) by (symmetry; eapply alike_history; [exact ON|apply alike_firstn; exact AL]).
    unfold c. rewrite HE. clear c.
    destruct RR as [LL RR]. destruct (RR n ON) as [PG _]. clear RR HE.
    assert (HN : Forall (fun x => n_next (snd x) = None) (history n 0 [] (firstn (S k) m0))).
    { apply history_next; [|constructor]. rewrite <- (firstn_skipn (S k) m0) in FN'. apply Forall_app in FN' as [FN' _]. exact FN'. }
    set (hh := history n 0 [] (firstn (S k) m0)) in *. clearbody hh. split; auto.
    destruct (pyidx_ok rrow nb n NB LL ON) as (i & PI & I1 & I2).
    assert (PI' : pyidx row n = Some i) by (unfold pyidx in *; rewrite LR; auto).
    rewrite (pyget_slot _ _ _ PI) in PG. destruct (nth_error rrow i) as [c0|] eqn:EI; [|discriminate]. inversion PG. subst c0.
    destruct (NR _ _ EI) as (c' & EC & CC). exists c'. split; [rewrite (pyget_slot _ _ _ PI'), EC; reflexivity|].
    destruct hh as [|[v e] h]; cbn [cell_of complete_slot] in *.
    + inversion CC. constructor.
    + destruct (complete rows nxt _) as [y| |] eqn:CE; try discriminate. cbn [bind] in CC. inversion CC.
      apply complete_ok; auto. inversion HN; auto.
Qed.
