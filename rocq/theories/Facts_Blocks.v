(* Proofs about markdown documents made of blocks *)
From Coq Require Import String ZifyBool ZifyNat.
From Verif Require Import PyBase Model_Objects Model_Filestruct Model_Markdown Spec_Markdown Facts_Base Facts_Revision Facts_Doc Facts_Markdown.

Lemma word_app a b : ~ In 32 a -> word (a ++ 32 :: b) = a.
Proof. induction a as [|c a IH]; intro N; [reflexivity|]. cbn in *. replace (c =? 32) with false by lia. rewrite IH by tauto. reflexivity. Qed.
Lemma word_prefix a b : ~ In 32 a -> exists r, word (a ++ b) = a ++ r.
Proof. induction a as [|c a IH]; intro N; [exists (word b); reflexivity|]. cbn in *. replace (c =? 32) with false by lia. destruct (IH ltac:(tauto)) as (r & ->). now exists r. Qed.
Lemma indent_spaces w : forall r i, indent_loop (repeat 32 w ++ r) i 0 false = indent_loop r (i + w) 0 false.
Proof. induction w as [|w IH]; intros r i; cbn [repeat app indent_loop]; [f_equal; lia|]. change (32 =? 32) with true. cbn iota. rewrite IH. f_equal. lia. Qed.
Definition shown_char (c : Z) : Prop := c <> 32 /\ c <> 62 /\ c <> 9.
Lemma first_token w a r : shown_char (hd 0 a) -> a <> [] ->
  indentation_and_first_token (repeat 32 w ++ a ++ r) = (w, word (a ++ r)).
Proof.
  intros (H1 & H2 & H3) NA. unfold indentation_and_first_token. rewrite indent_spaces. destruct a as [|c a]; [congruence|]. cbn [hd app indent_loop] in *.
  replace (c =? 32) with false by lia. replace (c =? 62) with false by lia. replace (c =? 9) with false by lia. cbn [Nat.add].
  rewrite skipn_app, skipn_all2, repeat_length, Nat.sub_diag by (rewrite repeat_length; lia). reflexivity.
Qed.
Lemma strip_cr_no l : ~ In 13 l -> strip_cr l = l.
Proof. intro N. apply strip_cr_plain. rewrite Forall_forall. intros c I ->. tauto. Qed.
Lemma starts_fence l r : starts [96; 96; 96] (96 :: 96 :: 96 :: l) = r -> r = true.
Proof. intros <-. reflexivity. Qed.
Lemma md_unfold fuel lines i b blocks l w bs : (i < length lines)%nat -> line_at lines i = l -> strip_cr l = l -> indentation_and_first_token l = (w, bs) -> bs <> [] -> (w <= 3)%nat ->
  md_loop (S fuel) lines 0 i b blocks =
        (let flushed := blocks ++ flush_p b in
        if starts [96; 96; 96] bs then
          let (k, r) := parse_code_block true lines (i + 1) in
          md_loop fuel lines 0 (k + 1) [] (flushed ++ [MdTag (B "pre") r])
        else if truthy_b l && (all_eq 61 l || all_eq 45 l) then
          let (t, r) := parse_title_under lines i in
          md_loop fuel lines 0 (i + 1) [] (blocks ++ [MdTag t r])
        else if all_eq 35 bs then
          let (t, r) := parse_title_prefix lines i in
          md_loop fuel lines 0 (i + 1) [] (flushed ++ [MdTag t r])
        else if is_bullet bs then
          let (k, r) := parse_list false lines i in
          md_loop fuel lines 0 (k + 1) [] (flushed ++ [MdTag (B "ul") r])
        else if ends_dot bs && (48 <=? hd 0 bs) && (hd 0 bs <=? 57) then
          let (k, r) := parse_list true lines i in
          md_loop fuel lines 0 (k + 1) [] (flushed ++ [MdTag (B "ol") r])
        else if beqb bs [124] then
          let* (k, r) := parse_table lines i in
          md_loop fuel lines 0 (k + 1) [] (flushed ++ [MdTag (B "table") r])
        else if match b with [] => false | _ => negb (truthy_b l) end then
          md_loop fuel lines 0 (i + 1) [] flushed
        else
          let b1 := b ++ [skipn w l] ++ (if beqb (slice l (-2) (blen l)) [32; 32] then [br_tag] else []) in
          md_loop fuel lines 0 (i + 1) b1 blocks).
Proof.
  intros LI EL SC ET NB W. cbn [md_loop]. replace (i <? length lines)%nat with true by (symmetry; apply Nat.ltb_lt; auto). rewrite EL, SC, ET.
  destruct bs as [|c bs]; [congruence|]. change (truthy_b (c :: bs)) with true. cbn [negb andb Nat.ltb Nat.leb]. destruct w as [|[|[|[|]]]]; try lia; reflexivity.
Qed.

Lemma all_eq_no x l c : In c l -> c <> x -> all_eq x l = false.
Proof. intros I N. unfold all_eq. apply not_true_iff_false. intro E. rewrite forallb_forall in E. specialize (E c I). lia. Qed.
Lemma ends_two l : beqb (slice l (-2) (blen l)) [32; 32] = true <-> broken l.
Proof.
  unfold slice, bound. change (-2 <? 0) with true. cbn iota. assert (BL : blen l <? 0 = false) by (unfold blen; lia). rewrite BL. unfold sub.
  rewrite firstn_all2 by (rewrite skipn_length; unfold blen in *; rewrite Nat2Z.id, Nat.min_id; lia). split; intro H.
  - apply beqb_eq in H. exists (firstn (Z.to_nat (-2 + blen l)) l). change (B "  ") with [32; 32]. rewrite <- H. now rewrite firstn_skipn.
  - destruct H as (m & ->). change (B "  ") with [32; 32]. apply beqb_eq. unfold blen. rewrite app_length. cbn [length]. rewrite skipn_app, skipn_all2 by lia. replace (Z.to_nat (-2 + Z.of_nat (length m + 2)) - length m)%nat with 0%nat by lia. reflexivity.
Qed.

(* ---------- paragraphs ---------- *)
Definition para_line (l : bytes) : Prop := letter (hd 0 l) /\ unmarked l.
Definition with_break (l : bytes) : list bytes := l :: if beqb (slice l (-2) (blen l)) [32; 32] then [br_tag] else [].
Lemma unmarked_cr l : unmarked l -> ~ In 13 l.
Proof. intros U I. unfold unmarked in U. rewrite Forall_forall in U. apply U in I. lia. Qed.
Lemma unmarked_nl l : unmarked l -> ~ In 10 l.
Proof. intros U I. unfold unmarked in U. rewrite Forall_forall in U. apply U in I. lia. Qed.
Lemma para_turn fuel lines i b blocks l : (i < length lines)%nat -> line_at lines i = l -> para_line l ->
  md_loop (S fuel) lines 0 i b blocks = md_loop fuel lines 0 (i + 1) (b ++ with_break l) blocks.
Proof.
  intros LI EL (HL & U). destruct l as [|c r]; [unfold letter in HL; cbn in HL; lia|]. cbn [hd] in HL.
  assert (NC : forall x, (x < 65 \/ 122 < x \/ 90 < x < 97) -> (c =? x) = false) by (unfold letter in HL; intros; lia).
  assert (T := first_token 0 (c :: r) [] ltac:(unfold shown_char, letter in *; cbn; lia) ltac:(discriminate)). rewrite app_nil_r in T. cbn [repeat app word] in T. rewrite NC in T by lia.
  rewrite (md_unfold fuel lines i b blocks _ _ _ LI EL (strip_cr_no _ (unmarked_cr _ U)) T) by (lia || discriminate).
  replace (starts [96; 96; 96] (c :: word r)) with false by (unfold starts; cbn [length firstn beqb]; rewrite NC by lia; reflexivity). cbn zeta iota.
  assert (HA : forall x l, (x < 65 \/ 122 < x \/ 90 < x < 97) -> all_eq x (c :: l) = false) by (intros x l H; apply all_eq_no with (c := c); [now left|]; specialize (NC x H); lia).
  rewrite !HA by lia. cbn [truthy_b andb orb]. unfold is_bullet. cbn [beqb]. rewrite !NC by lia. cbn [andb orb].
  replace (ends_dot (c :: word r) && (48 <=? hd 0 (c :: word r)) && (hd 0 (c :: word r) <=? 57)) with false by (cbn [hd]; unfold letter in HL; replace (c <=? 57) with false by lia; now rewrite andb_false_r).
  cbn [negb]. replace (match b with [] => false | _ => false end) with false by (destruct b; auto). cbn [skipn]. reflexivity.
Qed.
Lemma para_lines p : forall fuel pre post b blocks, Forall para_line p ->
  md_loop (length p + fuel) (pre ++ p ++ post) 0 (length pre) b blocks = md_loop fuel (pre ++ p ++ post) 0 (length (pre ++ p)) (b ++ flat_map with_break p) blocks.
Proof.
  induction p as [|l p IH]; intros fuel pre post b blocks F; [cbn [length app flat_map]; rewrite !app_nil_r; reflexivity|].
  inversion F; subst. cbn [length Nat.add flat_map]. rewrite para_turn with (l := l); [|rewrite !app_length; cbn [length]; lia|cbn [app]; apply line_at_app|auto].
  replace (pre ++ (l :: p) ++ post) with ((pre ++ [l]) ++ p ++ post) by (rewrite <- !app_assoc; reflexivity).
  replace (length pre + 1)%nat with (length (pre ++ [l])) by (rewrite app_length; reflexivity). rewrite IH by auto. rewrite <- !app_assoc. reflexivity.
Qed.

(* ---------- the lines and the tree of a block ---------- *)
Definition block_lines (b : block) : list bytes :=
  match b with
  | Para p => p ++ [[]]
  | Title n t => [repeat 35 n ++ B " " ++ t]
  | Fence lang code => [B "```" ++ lang] ++ code ++ [B "```"]
  | Bullets w c items => map (bullet_line w c) items ++ [[]]
  | Steps w items => map (step_line w) items ++ [[]]
  | Underlined n t k => [t; under_line n k]
  | Indented code => map code_indent code ++ [[]]
  | Table head rule rows => bar_line head :: bar_line rule :: map bar_line rows ++ [[]]
  end.
Definition block_node (b : block) : mdnode :=
  match b with
  | Para p => MdTag (B "p") [MdText (concat (flat_map with_break p))]
  | Title n t => MdTag (H_n n) [MdText t]
  | Fence lang code => MdTag (B "pre") (map (fun l => MdText (l ++ [10])) code)
  | Bullets w c items => MdTag (B "ul") (map (fun t => MdTag (B "li") [MdText t]) items)
  | Steps w items => MdTag (B "ol") (map (fun s => MdTag (B "li") [MdText (snd s)]) items)
  | Underlined n t k => MdTag (H_n n) [MdText t]
  | Indented code => MdTag (B "pre") (map (fun l => MdText (code_indent l ++ [10])) code)
  | Table head rule rows =>
      MdTag (B "table") [MdTag (B "thead") [MdTag (B "tr") (map (fun c => MdTag (B "th") [MdText c]) head)];
                         MdTag (B "tbody") (map (fun r => MdTag (B "tr") (map (fun c => MdTag (B "td") [MdText c]) r)) rows)]
  end.
Lemma skipn_here {A} (a b : list A) n : n = length a -> skipn n (a ++ b) = b.
Proof. intros ->. rewrite skipn_app, skipn_all2, Nat.sub_diag by lia. reflexivity. Qed.

Lemma code_lines_at code rest : forall i, Forall code_line code -> code_lines true (code ++ B "```" :: rest) i = ((i + length code)%nat, map (fun l => MdText (l ++ [10])) code).
Proof.
  induction code as [|l code IH]; intros i F; [cbn; rewrite Nat.add_0_r; reflexivity|]. inversion F as [|? ? (N1 & N2 & N3) F']; subst. cbn [app code_lines].
  rewrite strip_cr_no by auto. replace (starts [96; 96; 96] (l ++ [10])) with false.
  - cbn [negb]. rewrite IH by auto. cbn [map length]. f_equal. lia.
  - symmetry. apply not_true_iff_false. intro E. change (B "```") with [96; 96; 96] in N3. apply N3. unfold starts in E. apply beqb_eq in E. cbn [length] in E.
    destruct l as [|x [|y [|z l]]]; cbn in E |- *; try discriminate; try (inversion E; fail). congruence.
Qed.
Lemma bullet_token w c t : In c (B "*+-") -> indentation_and_first_token (bullet_line w c t) = (w, [c]).
Proof.
  intro I. change (B "*+-") with [42; 43; 45] in I. unfold bullet_line. change ([c; 32] ++ t) with ([c] ++ 32 :: t). rewrite first_token; [|unfold shown_char; cbn in *; lia|discriminate].
  rewrite word_app; [reflexivity|]. cbn in *. lia.
Qed.
Lemma step_token w s : fst s <> [] -> Forall (fun c => 48 <= c <= 57) (fst s) -> indentation_and_first_token (step_line w s) = (w, fst s ++ [46]).
Proof.
  destruct s as [n t]. cbn [fst snd]. intros N F. unfold step_line. cbn [fst snd]. change (B ". ") with [46; 32]. replace (n ++ [46; 32] ++ t) with ((n ++ [46]) ++ 32 :: t) by (rewrite <- app_assoc; reflexivity).
  rewrite first_token; [|destruct n; [congruence|]; inversion F; subst; unfold shown_char; cbn; lia|destruct n; discriminate].
  rewrite word_app; [reflexivity|]. rewrite in_app_iff. intros [I|[I|[]]]; [|lia]. rewrite Forall_forall in F. apply F in I. lia.
Qed.
Lemma not_in_repeat (x y : Z) n : x <> y -> ~ In x (repeat y n).
Proof. intros N I. apply repeat_spec in I. congruence. Qed.
Lemma bullet_char w c t x : In c (B "*+-") -> unmarked t -> In x (bullet_line w c t) -> x <> 13 /\ x <> 10.
Proof.
  intros IC U I. unfold bullet_line in I. rewrite !in_app_iff in I. change (B "*+-") with [42; 43; 45] in IC. cbn in IC, I.
  destruct I as [I|[I|I]]; [apply repeat_spec in I; lia|lia|]. unfold unmarked in U. rewrite Forall_forall in U. apply U in I. lia.
Qed.
Lemma step_char w s x : Forall (fun c => 48 <= c <= 57) (fst s) -> unmarked (snd s) -> In x (step_line w s) -> x <> 13 /\ x <> 10.
Proof.
  intros F U I. unfold step_line in I. change (B ". ") with [46; 32] in I. rewrite !in_app_iff in I. cbn in I.
  destruct I as [I|[I|[I|I]]]; [apply repeat_spec in I; lia|rewrite Forall_forall in F; apply F in I; lia|lia|]. unfold unmarked in U. rewrite Forall_forall in U. apply U in I. lia.
Qed.
Lemma bullets_at w c items rest : In c (B "*+-") -> forall i, Forall (fun t => t <> [] /\ unmarked t) items ->
  list_lines false w (map (bullet_line w c) items ++ [] :: rest) i = ((i + length items)%nat, map (fun t => MdTag (B "li") [MdText t]) items).
Proof.
  intro IC. induction items as [|t items IH]; intros i F; [cbn; rewrite Nat.add_0_r; reflexivity|]. inversion F as [|? ? (NT & U) F']; subst. cbn [map app list_lines].
  rewrite strip_cr_no by (intro I; apply (bullet_char w c t) in I; auto; lia). rewrite bullet_token by auto.
  replace (is_bullet [c]) with true by (change (B "*+-") with [42; 43; 45] in IC; unfold is_bullet; cbn in IC |- *; lia). rewrite Nat.eqb_refl. cbn [andb]. rewrite IH by auto. cbn [map length].
  replace (S i + length items)%nat with (i + S (length items))%nat by lia. do 5 f_equal. unfold bullet_line. rewrite app_assoc. apply skipn_here. rewrite app_length, repeat_length. cbn. lia.
Qed.
Lemma ends_dot_last (l : bytes) : ends_dot (l ++ [46]) = true.
Proof. unfold ends_dot. rewrite last_last. destruct l; reflexivity. Qed.
Lemma all_eq_dot (l : bytes) : all_eq 35 (l ++ [46]) = false.
Proof. apply all_eq_no with (c := 46); [rewrite in_app_iff; cbn; auto|lia]. Qed.
Lemma label_tests (l : bytes) : l <> [] -> Forall (fun c => 48 <= c <= 57) l ->
  starts [96; 96; 96] (l ++ [46]) = false /\ is_bullet (l ++ [46]) = false /\ (48 <=? hd 0 (l ++ [46])) = true /\ (hd 0 (l ++ [46]) <=? 57) = true.
Proof.
  intros NL FD. destruct l as [|d ds]; [congruence|]. inversion FD; subst. cbn [app hd]. split; [|split; [|lia]].
  - unfold starts. cbn [length firstn beqb]. replace (d =? 96) with false by lia. reflexivity.
  - unfold is_bullet. cbn [beqb]. replace (d =? 42) with false by lia. replace (d =? 43) with false by lia. replace (d =? 45) with false by lia. reflexivity.
Qed.
Lemma steps_at w (items : list (bytes * bytes)) rest : forall i, Forall (fun s => fst s <> [] /\ Forall (fun c => 48 <= c <= 57) (fst s) /\ snd s <> [] /\ unmarked (snd s)) items ->
  list_lines true w (map (step_line w) items ++ [] :: rest) i = ((i + length items)%nat, map (fun s => MdTag (B "li") [MdText (snd s)]) items).
Proof.
  induction items as [|s items IH]; intros i F; [cbn; rewrite Nat.add_0_r; reflexivity|]. inversion F as [|? ? (NL & FD & NT & U) F']; subst. cbn [map app list_lines].
  rewrite strip_cr_no by (intro I; apply (step_char w s) in I; auto; lia). rewrite step_token by auto.
  rewrite ends_dot_last, Nat.eqb_refl. cbn [andb]. rewrite IH by auto. cbn [map length].
  replace (S i + length items)%nat with (i + S (length items))%nat by lia.
  assert (E : skipn (w + length (fst s ++ [46]) + 1) (step_line w s) = snd s).
  { unfold step_line. change (B ". ") with [46; 32]. rewrite (app_assoc (fst s)), (app_assoc (repeat 32 w)).
    apply skipn_here. rewrite !app_length, repeat_length. cbn. lia. }
  do 5 f_equal. exact E.
Qed.

Lemma under_tests n k : (1 <= n <= 2)%nat -> (2 <= k)%nat ->
  strip_cr (under_line n k) = under_line n k /\ indentation_and_first_token (under_line n k) = (0%nat, under_line n k) /\ under_line n k <> [] /\
  starts [96; 96; 96] (under_line n k) = false /\ (all_eq 61 (under_line n k) || all_eq 45 (under_line n k)) = true.
Proof.
  intros N K. unfold under_line. set (c := if Nat.eqb n 1 then 61 else 45). assert (HC : c = 61 \/ c = 45) by (subst c; destruct (Nat.eqb n 1); auto).
  destruct k as [|k]; [lia|]. split; [apply strip_cr_no; apply not_in_repeat; lia|]. split; [|split; [discriminate|split]].
  - assert (T := first_token 0 (repeat c (S k)) [] ltac:(unfold shown_char; cbn; lia) ltac:(discriminate)). rewrite app_nil_r in T. cbn [repeat app] in T |- *. rewrite T. f_equal.
    clear - HC. change (c :: repeat c k) with (repeat c (S k)). induction (S k) as [|m IH]; [reflexivity|]. cbn [repeat word]. replace (c =? 32) with false by lia. now rewrite IH.
  - unfold starts. cbn [repeat length firstn beqb]. replace (c =? 96) with false by lia. reflexivity.
  - assert (A : all_eq c (repeat c (S k)) = true) by (unfold all_eq; apply forallb_forall; intros x I; apply repeat_spec in I; lia). destruct HC as [E|E]; rewrite E in *; rewrite A; [reflexivity|now rewrite orb_true_r].
Qed.
Lemma code_token l : indented_line l -> indentation_and_first_token (code_indent l) = (4%nat, word l) /\ word l <> [] /\ starts [96; 96; 96] (word l) = false /\ strip_cr (code_indent l) = code_indent l.
Proof.
  intros ((N1 & N2 & N3) & NL & H1 & H2 & H3). assert (T := first_token 4 l [] ltac:(unfold shown_char; auto) NL). rewrite app_nil_r in T. split; [exact T|].
  change (B "```") with [96; 96; 96] in N3. destruct l as [|c l]; [congruence|]. cbn [hd] in *. cbn [word]. replace (c =? 32) with false by lia. split; [discriminate|]. split.
  - apply not_true_iff_false. intro E. apply N3. unfold starts in E. apply beqb_eq in E. cbn [length firstn] in E. assert (E1 : c = 96) by congruence. assert (E2 := f_equal (@tl Z) E). cbn [tl] in E2. subst c. clear E.
    destruct l as [|y [|z l]]; cbn [word] in E2; [discriminate|destruct (y =? 32); discriminate|]. destruct (y =? 32); [discriminate|]. destruct (z =? 32); [discriminate|]. cbn [firstn] in E2 |- *. now rewrite E2.
  - apply strip_cr_no. unfold code_indent. change (B "    ") with [32; 32; 32; 32]. cbn [app]. intros [I|[I|[I|[I|I]]]]; try lia. now apply N2.
Qed.
Lemma indented_at code rest : forall i, Forall indented_line code -> code_lines false (map code_indent code ++ [] :: rest) i = ((i + length code)%nat, map (fun l => MdText (code_indent l ++ [10])) code).
Proof.
  induction code as [|l code IH]; intros i F; [cbn; rewrite Nat.add_0_r; reflexivity|]. inversion F as [|? ? OK F']; subst. cbn [map app code_lines].
  destruct (code_token l OK) as (T & _ & _ & ->). rewrite T. cbn [fst Nat.eqb]. rewrite IH by auto. cbn [length]. f_equal. lia.
Qed.
Lemma split_cells l : Forall cell_text l -> split_on 124 (bar_line l) = [] :: l ++ [[]].
Proof.
  intro F. unfold bar_line. change (B "|") with [124]. cbn [app split_on]. change (124 =? 124) with true. cbn iota. f_equal.
  induction F as [|c l (_ & N) _ IH]; [reflexivity|]. cbn [flat_map app]. rewrite <- app_assoc. cbn [app]. rewrite <- IH. generalize (flat_map (fun c => c ++ [124]) l). intro r. clear - N.
  induction c as [|x c IH]; [reflexivity|]. cbn [app split_on]. cbn in N. replace (x =? 124) with false by lia. rewrite IH by tauto. reflexivity.
Qed.
Lemma bar_char l x : Forall cell_text l -> In x (bar_line l) -> x <> 13 /\ x <> 10.
Proof.
  intros F [I|I]; [cbn in I; lia|]. apply in_flat_map in I as (c & IC & I). rewrite Forall_forall in F. destruct (F c IC) as (U & _). rewrite in_app_iff in I. destruct I as [I|[I|[]]]; [|cbn in I; lia].
  unfold unmarked in U. rewrite Forall_forall in U. apply U in I. lia.
Qed.
Lemma bar_token l : Forall cell_text l -> indentation_and_first_token (bar_line l) = (0%nat, word (bar_line l)) /\ starts [124] (word (bar_line l)) = true /\ strip_cr (bar_line l) = bar_line l.
Proof.
  intro F. split; [|split; [reflexivity|apply strip_cr_no; intro I; apply (bar_char l) in I; auto; lia]].
  exact (first_token 0 (B "|") (flat_map (fun c => c ++ B "|") l) ltac:(unfold shown_char; cbn; lia) ltac:(discriminate)).
Qed.
Lemma bar_cells t l : Forall cell_text l -> table_cells t (bar_line l) 0 = map (fun c => MdTag t [MdText c]) l.
Proof. intro F. unfold table_cells. cbn [skipn]. rewrite split_cells by auto. cbn [tl]. rewrite removelast_last. reflexivity. Qed.
Lemma ruled_test c : beqb (sub c 1 3) [45; 45] = true <-> ruled c.
Proof.
  unfold ruled. change (B "--") with [45; 45]. split.
  - intro E. apply beqb_eq in E. unfold sub in E. destruct c as [|a [|b [|d r]]]; cbn in E; try discriminate. inversion E. exists a, r. reflexivity.
  - intros (a & r & ->). reflexivity.
Qed.
Lemma rows_at rows rest : forall i, Forall (fun r => r <> [] /\ ~ ruled (hd [] r) /\ Forall cell_text r) rows ->
  table_lines 0 (map bar_line rows ++ [] :: rest) i = Ok ((i + length rows)%nat, map (fun r => MdTag (B "tr") (map (fun c => MdTag (B "td") [MdText c]) r)) rows).
Proof.
  induction rows as [|r rows IH]; intros i F; [cbn; rewrite Nat.add_0_r; reflexivity|]. inversion F as [|? ? (NR & NU & FC) F']; subst. cbn [map app table_lines].
  destruct (bar_token r FC) as (T & SB & ->). rewrite T, SB. cbn [Nat.eqb andb]. rewrite bar_cells by auto. destruct r as [|c r]; [congruence|]. cbn [hd] in NU. cbn [map dashes bind].
  replace (beqb (sub c 1 3) [45; 45]) with false by (symmetry; apply not_true_iff_false; rewrite ruled_test; exact NU). rewrite IH by auto. cbn [bind length map]. f_equal. f_equal. lia.
Qed.
Lemma rule_at l rest i k x : l <> [] -> ruled (hd [] l) -> Forall cell_text l -> table_lines 0 rest (S i) = Ok (k, x) -> table_lines 0 (bar_line l :: rest) i = Ok (k, x).
Proof.
  intros NL R FC E. cbn [table_lines]. destruct (bar_token l FC) as (T & SB & ->). rewrite T, SB. cbn [Nat.eqb andb]. rewrite bar_cells by auto. destruct l as [|c r]; [congruence|]. cbn [hd] in R. cbn [map dashes bind].
  apply ruled_test in R. rewrite R, E. reflexivity.
Qed.

Lemma block_step bk fuel pre post blocks : block_ok bk ->
  md_loop (length (block_lines bk) + fuel) (pre ++ block_lines bk ++ post) 0 (length pre) [] blocks =
  md_loop (match bk with Fence _ code => length code + 1 + fuel | Bullets _ _ items => length items + fuel | Steps _ items => length items + fuel
    | Indented code => length code + fuel | Table _ _ rows => length rows + 2 + fuel | _ => fuel end)
    (pre ++ block_lines bk ++ post) 0 (length (pre ++ block_lines bk)) [] (blocks ++ [block_node bk]).
Proof.
  destruct bk as [p|n t|lang code|w c items|w items|n t k|code|head rule rows]; cbn [block_ok block_lines block_node].
  - intros (NP & F). rewrite app_length. cbn [length]. replace (length p + 1 + fuel)%nat with (length p + S fuel)%nat by lia. rewrite <- (app_assoc p). rewrite para_lines by exact F.
    rewrite (app_assoc pre p). rewrite blank_turn; [|rewrite !app_length; cbn [length]; lia|apply line_at_app|destruct p; [congruence|discriminate]].
    rewrite (app_assoc pre p), (app_length (pre ++ p)). cbn [length]. destruct p as [|l p]; [congruence|]. reflexivity.
  - intros (NN & NT & U). cbn [length Nat.add]. change (B " ") with [32].
    assert (ET : indentation_and_first_token (repeat 35 n ++ 32 :: t) = (0%nat, repeat 35 n)).
    { destruct n as [|n]; [lia|]. assert (T := first_token 0 (repeat 35 (S n)) (32 :: t) ltac:(unfold shown_char; cbn; lia) ltac:(discriminate)). rewrite word_app in T by (apply not_in_repeat; lia). exact T. }
    assert (SC : strip_cr (repeat 35 n ++ 32 :: t) = repeat 35 n ++ 32 :: t). { apply strip_cr_no. rewrite in_app_iff. intros [I|[I|I]]; [apply repeat_spec in I; lia|lia|]. now apply (unmarked_cr _ U). }
    set (lines := pre ++ [repeat 35 n ++ [32] ++ t] ++ post).
    assert (EL : line_at lines (length pre) = repeat 35 n ++ 32 :: t) by apply line_at_app.
    assert (LI : (length pre < length lines)%nat) by (subst lines; rewrite !app_length; cbn [length]; lia).
    assert (NR : repeat 35 n <> []) by (destruct n; [lia|discriminate]).
    rewrite (md_unfold fuel _ _ _ _ _ _ _ LI EL SC ET NR) by lia.
    replace (starts [96; 96; 96] (repeat 35 n)) with false by (destruct n; reflexivity). cbn zeta iota.
    rewrite !(all_eq_no _ (repeat 35 n ++ 32 :: t) 32) by (try lia; rewrite in_app_iff; cbn; auto). rewrite orb_false_r, andb_false_r.
    replace (all_eq 35 (repeat 35 n)) with true by (symmetry; unfold all_eq; apply forallb_forall; intros x I; apply repeat_spec in I; lia).
    unfold parse_title_prefix. rewrite EL, SC, ET. cbn [snd]. rewrite repeat_length, app_length. cbn [length flush_p]. rewrite app_nil_r. do 6 f_equal.
    replace (repeat 35 n ++ 32 :: t) with ((repeat 35 n ++ [32]) ++ t) by (rewrite <- app_assoc; reflexivity). apply skipn_here. rewrite app_length, repeat_length. reflexivity.
  - intros (N1 & N2 & F). rewrite !app_length. cbn [length]. replace (1 + (length code + 1) + fuel)%nat with (S (length code + 1 + fuel)) by lia.
    set (lines := pre ++ ([B "```" ++ lang] ++ code ++ [B "```"]) ++ post). assert (EL : line_at lines (length pre) = B "```" ++ lang) by apply line_at_app.
    assert (SC : strip_cr (B "```" ++ lang) = B "```" ++ lang). { apply strip_cr_no. change (B "```") with [96; 96; 96]. cbn. intros [I|[I|[I|I]]]; [lia|lia|lia|tauto]. }
    destruct (word_prefix (B "```") lang ltac:(cbn; lia)) as (r & EW).
    assert (ET := first_token 0 (B "```") lang ltac:(unfold shown_char; cbn; lia) ltac:(discriminate)). rewrite EW in ET.
    assert (LI : (length pre < length lines)%nat) by (subst lines; rewrite !app_length; cbn [length map]; lia).
    rewrite (md_unfold _ _ _ _ _ _ _ _ LI EL SC ET) by (lia || discriminate).
    change (starts [96; 96; 96] (B "```" ++ r)) with true. cbn zeta iota. unfold parse_code_block.
    replace (skipn (length pre + 1) lines) with (code ++ B "```" :: post).
    + rewrite code_lines_at by auto. cbn [flush_p]. rewrite app_nil_r. f_equal. lia.
    + subst lines. replace (pre ++ ([B "```" ++ lang] ++ code ++ [B "```"]) ++ post) with ((pre ++ [B "```" ++ lang]) ++ (code ++ B "```" :: post)) by (rewrite <- !app_assoc; reflexivity). rewrite skipn_here; [reflexivity|]. rewrite app_length. reflexivity.
  - intros (W & IC & NI & F). rewrite !app_length, map_length. cbn [length]. destruct items as [|t items]; [congruence|]. replace (length (t :: items) + 1 + fuel)%nat with (S (length (t :: items) + fuel)) by lia.
    set (lines := pre ++ (map (bullet_line w c) (t :: items) ++ [[]]) ++ post). assert (EL : line_at lines (length pre) = bullet_line w c t) by apply line_at_app.
    assert (U := F). inversion U as [|? ? (NT & U') _]; subst.
    assert (SC : strip_cr (bullet_line w c t) = bullet_line w c t) by (apply strip_cr_no; intro I; apply (bullet_char w c t) in I; auto; lia).
    assert (LI : (length pre < length lines)%nat) by (subst lines; rewrite !app_length; cbn [length map]; lia).
    rewrite (md_unfold _ _ _ _ _ _ _ _ LI EL SC (bullet_token w c t IC)) by (lia || discriminate).
    assert (I32 : In 32 (bullet_line w c t)) by (unfold bullet_line; rewrite !in_app_iff; cbn; auto).
    rewrite !(all_eq_no _ (bullet_line w c t) 32 I32) by lia. rewrite orb_false_r, andb_false_r. change (B "*+-") with [42; 43; 45] in IC.
    replace (starts [96; 96; 96] [c]) with false by (unfold starts; cbn; now rewrite andb_false_r). rewrite (all_eq_no 35 [c] c) by (cbn in *; lia). cbn zeta iota.
    replace (is_bullet [c]) with true by (unfold is_bullet; cbn in IC |- *; lia). unfold parse_list. rewrite EL, bullet_token by exact IC. cbn [fst].
    replace (skipn (length pre) lines) with (map (bullet_line w c) (t :: items) ++ [] :: post) by (subst lines; rewrite skipn_here by reflexivity; rewrite <- app_assoc; reflexivity).
    rewrite bullets_at by auto. cbn [flush_p]. rewrite app_nil_r. f_equal. symmetry. apply Nat.add_assoc.
  - intros (W & NI & F). rewrite !app_length, map_length. cbn [length]. destruct items as [|s items]; [congruence|]. replace (length (s :: items) + 1 + fuel)%nat with (S (length (s :: items) + fuel)) by lia.
    set (lines := pre ++ (map (step_line w) (s :: items) ++ [[]]) ++ post). assert (EL : line_at lines (length pre) = step_line w s) by apply line_at_app.
    assert (U := F). inversion U as [|? ? (NL & FD & NT & U') _]; subst.
    assert (SC : strip_cr (step_line w s) = step_line w s) by (apply strip_cr_no; intro I; apply (step_char w s) in I; auto; lia).
    assert (LI : (length pre < length lines)%nat) by (subst lines; rewrite !app_length; cbn [length map]; lia).
    rewrite (md_unfold _ _ _ _ _ _ _ _ LI EL SC (step_token w s NL FD) (not_eq_sym (app_cons_not_nil _ _ _)) W).
    assert (I32 : In 32 (step_line w s)) by (unfold step_line; change (B ". ") with [46; 32]; rewrite !in_app_iff; cbn; tauto).
    rewrite !(all_eq_no _ (step_line w s) 32 I32) by lia. rewrite orb_false_r, andb_false_r. rewrite all_eq_dot.
    unfold parse_list. rewrite EL, step_token by auto. cbn [fst].
    replace (skipn (length pre) lines) with (map (step_line w) (s :: items) ++ [] :: post) by (subst lines; rewrite skipn_here by reflexivity; rewrite <- app_assoc; reflexivity).
    rewrite steps_at by auto. destruct s as [lab t]. cbn [fst snd] in *. destruct (label_tests lab NL FD) as (T1 & T2 & T3 & T4). rewrite T1, T2, T3, T4, ends_dot_last. cbn [andb flush_p]. rewrite app_nil_r. f_equal. symmetry. apply Nat.add_assoc.
  - intros (NN & NK & HL & U). cbn [length Nat.add]. set (lines := pre ++ [t; under_line n k] ++ post).
    assert (EL : line_at lines (length pre) = t) by apply line_at_app.
    assert (EU : line_at lines (length pre + 1) = under_line n k). { replace (length pre + 1)%nat with (length (pre ++ [t])) by (rewrite app_length; reflexivity). subst lines. replace (pre ++ [t; under_line n k] ++ post) with ((pre ++ [t]) ++ under_line n k :: post) by (rewrite <- app_assoc; reflexivity). apply line_at_app. }
    assert (LI : (length pre + 1 < length lines)%nat) by (subst lines; rewrite !app_length; cbn [length]; lia).
    rewrite para_turn with (l := t); [|lia|exact EL|now split]. destruct (under_tests n k NN NK) as (SC & ET & NE & T1 & T2).
    rewrite (md_unfold fuel _ _ _ _ _ _ _ LI EU SC ET NE) by lia. rewrite T1, T2. replace (truthy_b (under_line n k)) with true by (destruct (under_line n k); [congruence|reflexivity]). cbn [andb]. cbn zeta iota.
    unfold parse_title_under. rewrite EU. replace (length pre + 1)%nat with (S (length pre)) by lia. rewrite EL, strip_cr_no by now apply unmarked_cr. rewrite app_length. cbn [length]. replace (S (length pre) + 1)%nat with (length pre + 2)%nat by lia. do 4 f_equal.
    unfold under_line. destruct k as [|[|k]]; try lia. destruct n as [|[|[|]]]; try lia; reflexivity.
  - intros (NI & F). rewrite !app_length, map_length. cbn [length]. destruct code as [|l code]; [congruence|]. replace (length (l :: code) + 1 + fuel)%nat with (S (length (l :: code) + fuel)) by lia.
    set (lines := pre ++ (map code_indent (l :: code) ++ [[]]) ++ post). assert (EL : line_at lines (length pre) = code_indent l) by apply line_at_app.
    destruct (code_token l (Forall_inv F)) as (T & NW & NF & SC).
    assert (LI : (length pre < length lines)%nat) by (subst lines; rewrite !app_length; cbn [length map]; lia).
    cbn [md_loop]. replace (length pre <? length lines)%nat with true by (symmetry; apply Nat.ltb_lt; exact LI). rewrite EL, SC, T, NF. destruct (word l) as [|x wl]; [congruence|]. cbn [truthy_b negb andb Nat.add Nat.ltb Nat.leb].
    unfold parse_code_block. replace (skipn (length pre) lines) with (map code_indent (l :: code) ++ [] :: post) by (subst lines; rewrite skipn_here by reflexivity; rewrite <- app_assoc; reflexivity).
    rewrite indented_at by auto. cbn [flush_p]. rewrite app_nil_r. f_equal. symmetry. apply Nat.add_assoc.
  - intros (HH & FH & NR & RR & FR & F). cbn [length]. rewrite !app_length, map_length. cbn [length]. rewrite app_length, map_length. cbn [length]. replace (S (S (length rows + 1)) + fuel)%nat with (S (length rows + 2 + fuel)) by lia.
    set (lines := pre ++ (bar_line head :: bar_line rule :: map bar_line rows ++ [[]]) ++ post). assert (EL : line_at lines (length pre) = bar_line head) by apply line_at_app.
    destruct (bar_token head FH) as (T & SB & SC).
    assert (LI : (length pre < length lines)%nat) by (subst lines; rewrite !app_length; cbn [length map]; lia).
    assert (WH : word (bar_line head) = [124]). { destruct head as [|[|c h] head]; cbn in HH; try lia. subst c. reflexivity. }
    assert (NE : word (bar_line head) <> []) by (rewrite WH; discriminate).
    rewrite (md_unfold _ _ _ _ _ _ _ _ LI EL SC T NE) by lia. rewrite WH. change (starts [96; 96; 96] [124]) with false. cbn zeta iota.
    assert (I32 : In 32 (bar_line head)). { destruct head as [|[|c h] head]; cbn in HH; try lia. subst c. right. left. reflexivity. }
    rewrite !(all_eq_no _ (bar_line head) 32 I32) by lia. rewrite orb_false_r, andb_false_r. change (all_eq 35 [124]) with false. change (is_bullet [124]) with false. change (ends_dot [124]) with false. change (beqb [124] [124]) with true. cbn [andb]. cbn zeta iota.
    unfold parse_table. rewrite EL, SC, T. cbn [fst]. rewrite SB. cbn [Nat.eqb andb]. rewrite bar_cells by auto.
    replace (skipn (S (length pre)) lines) with (bar_line rule :: map bar_line rows ++ [] :: post).
    + rewrite (rule_at rule _ _ _ _ NR RR FR (rows_at rows post _ F)). cbn [bind flush_p]. rewrite app_nil_r.
      match goal with |- md_loop _ _ _ ?a _ _ = md_loop _ _ _ ?c _ _ => assert (EI : a = c) by (cbn [length]; rewrite ?app_length, ?map_length; cbn [length]; unfold bytes; clear; lia); rewrite EI end. reflexivity.
    + subst lines. replace (pre ++ (bar_line head :: bar_line rule :: map bar_line rows ++ [[]]) ++ post) with ((pre ++ [bar_line head]) ++ (bar_line rule :: map bar_line rows ++ [] :: post)) by (cbn [app]; rewrite <- !app_assoc; reflexivity).
      symmetry. apply skipn_here. rewrite app_length. cbn [length]. lia.
Qed.

Lemma blocks_parsed bs : forall fuel pre blocks, Forall block_ok bs -> (length (flat_map block_lines bs) + 1 < fuel)%nat ->
  exists n, md_loop fuel (pre ++ flat_map block_lines bs ++ [[]]) 0 (length pre) [] blocks = Ok (blocks ++ map block_node bs, n).
Proof.
  induction bs as [|bk bs IH]; intros fuel pre blocks F L.
  - cbn [flat_map app map] in *. cbn [length] in L. destruct fuel as [|[|fuel]]; [lia|lia|].
    destruct (empty_turn (S fuel) (pre ++ [[]]) (length pre) blocks) as (b' & ->); [rewrite app_length; cbn; lia|apply line_at_app|].
    rewrite md_stop by (rewrite app_length; cbn; lia). rewrite app_nil_r. eexists. reflexivity.
  - inversion F as [|? ? OK F']; subst. cbn [flat_map map] in *. rewrite app_length in L. rewrite <- (app_assoc (block_lines bk)).
    assert (E : fuel = (length (block_lines bk) + (fuel - length (block_lines bk)))%nat) by lia. rewrite E, block_step by auto. clear E.
    rewrite (app_assoc pre).
    match goal with |- context [md_loop ?f _ _ _ _ _] => destruct (IH f (pre ++ block_lines bk) (blocks ++ [block_node bk]) F') as (n & EN) end.
    + destruct bk; lia.
    + exists n. rewrite EN. rewrite <- app_assoc. reflexivity.
Qed.
Lemma no_nl_forall (l : bytes) : ~ In 10 l -> Forall (fun c => c <> 10) l.
Proof. intro N. rewrite Forall_forall. intros c I ->. tauto. Qed.
Lemma block_split bk : block_ok bk -> Forall (Forall (fun c => c <> 10)) (block_lines bk) /\ block_source bk = flat_map (fun l => l ++ [10]) (block_lines bk).
Proof.
  destruct bk as [p|n t|lang code|w c items|w items|n t k|code|head rule rows]; cbn [block_ok block_lines block_source]; unfold line_of.
  - intros (NP & F). split; [|rewrite flat_map_app; reflexivity]. apply Forall_app. split; [|repeat constructor]. eapply Forall_impl; [|exact F]. intros l (_ & U). apply no_nl_forall, unmarked_nl, U.
  - intros (NN & NT & U). split; [|cbn [flat_map]; rewrite app_nil_r; reflexivity]. constructor; [|constructor]. apply no_nl_forall. change (B " ") with [32]. rewrite in_app_iff. intros [I|[I|I]]; [apply repeat_spec in I; lia|lia|]. now apply (unmarked_nl _ U).
  - intros (N1 & N2 & F). split.
    + constructor; [apply no_nl_forall; change (B "```") with [96; 96; 96]; cbn; intros [I|[I|[I|I]]]; [lia|lia|lia|tauto]|]. apply Forall_app. split; [|constructor; [|constructor]; repeat constructor; discriminate].
      eapply Forall_impl; [|exact F]. intros l (U & _). apply no_nl_forall, U.
    + cbn [app flat_map]. rewrite flat_map_app. cbn [flat_map]. rewrite app_nil_r, <- !app_assoc. reflexivity.
  - intros (W & IC & NI & F). split.
    + apply Forall_app. split; [|repeat constructor]. apply Forall_forall. intros l I. apply in_map_iff in I as (t & <- & I). rewrite Forall_forall in F. destruct (F t I) as (NT & U). apply Forall_forall. intros x J. now apply (bullet_char w c t) in J.
    + rewrite flat_map_app. cbn [flat_map app]. f_equal. rewrite !flat_map_concat_map, map_map. reflexivity.
  - intros (W & NI & F). split.
    + apply Forall_app. split; [|repeat constructor]. apply Forall_forall. intros l I. apply in_map_iff in I as (s & <- & I). rewrite Forall_forall in F. destruct (F s I) as (NL & FD & NT & U). apply Forall_forall. intros x J. now apply (step_char w s) in J.
    + rewrite flat_map_app. cbn [flat_map app]. f_equal. rewrite !flat_map_concat_map, map_map. reflexivity.
  - intros (NN & NK & HL & U). split; [|cbn [flat_map]; rewrite app_nil_r; reflexivity]. constructor; [apply no_nl_forall, unmarked_nl, U|constructor; [|constructor]]. apply no_nl_forall, not_in_repeat. destruct (Nat.eqb n 1); lia.
  - intros (NI & F). split.
    + apply Forall_app. split; [|repeat constructor]. apply Forall_forall. intros l I. apply in_map_iff in I as (t & <- & I). rewrite Forall_forall in F. destruct (F t I) as ((N1 & _) & _). apply no_nl_forall. unfold code_indent. change (B "    ") with [32; 32; 32; 32]. cbn [app]. intros [J|[J|[J|[J|J]]]]; try lia. now apply N1.
    + rewrite flat_map_app. cbn [flat_map app]. f_equal. rewrite !flat_map_concat_map, map_map. reflexivity.
  - intros (HH & FH & NR & RR & FR & F). assert (BN : forall l, Forall cell_text l -> Forall (fun c => c <> 10) (bar_line l)) by (intros l FL; apply no_nl_forall; intro I; apply (bar_char l) in I; auto; lia). split.
    + constructor; [now apply BN|]. constructor; [now apply BN|]. apply Forall_app. split; [|repeat constructor]. apply Forall_forall. intros l I. apply in_map_iff in I as (r & <- & I). rewrite Forall_forall in F. destruct (F r I) as (_ & _ & FC). now apply BN.
    + cbn [flat_map]. rewrite flat_map_app. cbn [flat_map app]. do 3 f_equal. rewrite !flat_map_concat_map, map_map. reflexivity.
Qed.
Lemma blocks_split bs : Forall block_ok bs -> split_on 10 (flat_map block_source bs) = flat_map block_lines bs ++ [[]].
Proof.
  induction 1 as [|b bs OK _ IH]; [reflexivity|]. cbn [flat_map]. destruct (block_split b OK) as (F & ->). rewrite split_lines by auto. rewrite IH, app_assoc. reflexivity.
Qed.
Lemma blocks_lines_length bs : Forall block_ok bs -> (length (flat_map block_lines bs) <= length (flat_map block_source bs))%nat.
Proof.
  induction 1 as [|b bs OK _ IH]; [auto|]. cbn [flat_map]. rewrite !app_length. destruct (block_split b OK) as (_ & ->). clear OK.
  enough ((length (block_lines b) <= length (flat_map (fun l => l ++ [10%Z]) (block_lines b)))%nat) by lia. induction (block_lines b) as [|l r IHr]; [auto|]. cbn [flat_map length]. rewrite !app_length. cbn [length]. lia.
Qed.

(* ---------- the html of a block ---------- *)
Definition siblings (fuel : nat) (pre : bool) := fix go (l : list mdnode) : res bytes :=
  match l with [] => Ok [] | x :: r => let* a := assemble fuel pre x in let* c := go r in Ok (a ++ c) end.
Lemma assemble_tag fuel pre t l h : siblings fuel (beqb t (B "pre")) l = Ok h -> assemble fuel pre (MdTag t l) = Ok (element t h).
Proof. intro E. cbn [assemble]. change (fix go (l0 : list mdnode) : res bytes := _) with (siblings fuel (beqb t (B "pre"))). rewrite E. cbn [bind]. unfold element. change (B "<") with [60]. change (B ">") with [62]. change (B "</") with [60; 47]. f_equal. Qed.
Lemma siblings_map {A} fuel pre (f : A -> mdnode) (g : A -> bytes) l : (forall x, In x l -> assemble fuel pre (f x) = Ok (g x)) -> siblings fuel pre (map f l) = Ok (flat_map g l).
Proof.
  induction l as [|x l IH]; intro H; [reflexivity|]. cbn [map siblings flat_map]. rewrite H by now left. cbn [bind]. fold (siblings fuel pre). rewrite IH by (intros y I; apply H; now right). reflexivity.
Qed.
Definition nomark (s : bytes) : Prop := Forall (fun c => c <> 91 /\ c <> 93 /\ c <> 96 /\ c <> 42 /\ c <> 95) s.
Lemma unmarked_nomark l : unmarked l -> nomark l.
Proof. intro U. eapply Forall_impl; [|exact U]. cbn. tauto. Qed.
Lemma assemble_text fuel s : (1 < fuel)%nat -> s <> [] -> nomark s -> assemble fuel false (MdText s) = Ok s.
Proof. intros L N U. cbn [assemble]. apply tags_plain; auto. Qed.
Lemma assemble_one fuel t s : (1 < fuel)%nat -> s <> [] -> nomark s -> beqb t (B "pre") = false -> assemble fuel false (MdTag t [MdText s]) = Ok (element t s).
Proof. intros L N U T. apply assemble_tag. rewrite T. cbn [siblings]. rewrite assemble_text by auto. cbn [bind]. rewrite app_nil_r. reflexivity. Qed.
Lemma tags_nil fuel : (1 < fuel)%nat -> tags fuel [] = Ok [].
Proof. intro L. destruct fuel; [lia|]. reflexivity. Qed.
Lemma assemble_cell fuel t s : (1 < fuel)%nat -> nomark s -> beqb t (B "pre") = false -> assemble fuel false (MdTag t [MdText s]) = Ok (element t s).
Proof.
  intros L U T. destruct s as [|x s]; [|apply assemble_one; auto; discriminate]. apply assemble_tag. rewrite T. cbn [siblings assemble]. rewrite tags_nil by auto. reflexivity.
Qed.
Lemma assemble_row fuel t l : (1 < fuel)%nat -> Forall cell_text l -> beqb t (B "pre") = false ->
  assemble fuel false (MdTag (B "tr") (map (fun c => MdTag t [MdText c]) l)) = Ok (element (B "tr") (flat_map (element t) l)).
Proof.
  intros L F T. apply assemble_tag, siblings_map. intros c I. rewrite Forall_forall in F. destruct (F c I) as (U & _). change (beqb (B "tr") (B "pre")) with false. apply assemble_cell; auto. now apply unmarked_nomark.
Qed.
Lemma para_html p : Forall para_line p -> exists hs, Forall2 line_html p hs /\ concat (flat_map with_break p) = concat hs.
Proof.
  induction 1 as [|l p (HL & U) _ (hs & F2 & E)]; [exists []; now split|]. cbn [flat_map]. destruct (beqb (slice l (-2) (blen l)) [32; 32]) eqn:EB.
  - exists ((l ++ B "<br>") :: hs). split; [constructor; auto; left; split; [now apply ends_two|reflexivity]|]. unfold with_break at 1. rewrite EB. cbn [app concat]. rewrite E, <- app_assoc. reflexivity.
  - exists (l :: hs). split; [constructor; auto; right; split; [intro BR; apply ends_two in BR; congruence|reflexivity]|]. unfold with_break at 1. rewrite EB. cbn [app concat]. rewrite E. reflexivity.
Qed.
Lemma para_nomark p : Forall para_line p -> nomark (concat (flat_map with_break p)).
Proof.
  induction 1 as [|l p (HL & U) _ IH]; [constructor|]. cbn [flat_map]. rewrite concat_app. apply Forall_app. split; [|exact IH]. unfold with_break. destruct (beqb _ _); cbn [concat]; rewrite ?app_nil_r; [|now apply unmarked_nomark].
  apply Forall_app. split; [now apply unmarked_nomark|]. repeat constructor; discriminate.
Qed.
Lemma escape_entities s : entities s = flat_map escape1 s.
Proof. reflexivity. Qed.
Lemma flat_map_flat_map {A C D} (f : A -> list C) (g : C -> list D) l : flat_map g (flat_map f l) = flat_map (fun x => flat_map g (f x)) l.
Proof. induction l as [|x l IH]; [reflexivity|]. cbn [flat_map]. rewrite flat_map_app, IH. reflexivity. Qed.
Lemma block_assembled fuel bk : (1 < fuel)%nat -> block_ok bk -> exists h, block_html bk h /\ assemble fuel false (block_node bk) = Ok h.
Proof.
  intro L. destruct bk as [p|n t|lang code|w c items|w items|n t k|code|head rule rows]; cbn [block_ok block_node].
  - intros (NP & F). destruct (para_html p F) as (hs & F2 & E). exists (element (B "p") (concat hs)). split; [now constructor|]. rewrite <- E. apply assemble_one; auto; [|now apply para_nomark].
    destruct p as [|l p]; [congruence|]. inversion F as [|? ? (HL & _) _]; subst. cbn [flat_map with_break app concat]. destruct l; [unfold letter in HL; cbn in HL; lia|discriminate].
  - intros (NN & NT & U). exists (element (heading n) t). split; [constructor|]. replace (H_n n) with (heading n).
    + apply assemble_one; auto. now apply unmarked_nomark.
    + destruct n as [|[|[|[|[|[|[|]]]]]]]; try lia; reflexivity.
  - intros (N1 & N2 & F). eexists. split; [constructor|]. apply assemble_tag. rewrite flat_map_flat_map. apply siblings_map. intros l I. change (beqb (B "pre") (B "pre")) with true. reflexivity.
  - intros (W & IC & NI & F). eexists. split; [constructor|]. apply assemble_tag, siblings_map. intros t I. rewrite Forall_forall in F. destruct (F t I) as (NT & U). change (beqb (B "ul") (B "pre")) with false. apply assemble_one; auto. now apply unmarked_nomark.
  - intros (W & NI & F). eexists. split; [constructor|]. apply assemble_tag. apply (siblings_map fuel _ (fun s : bytes * bytes => MdTag (B "li") [MdText (snd s)]) (fun s => element (B "li") (snd s))). intros s I. rewrite Forall_forall in F. destruct (F s I) as (NL & FD & NT & U). change (beqb (B "ol") (B "pre")) with false. apply assemble_one; auto. now apply unmarked_nomark.
  - intros (NN & NK & HL & U). exists (element (heading n) t). split; [constructor|]. replace (H_n n) with (heading n).
    + apply assemble_one; auto; [|now apply unmarked_nomark]. destruct t; [unfold letter in HL; cbn in HL; lia|discriminate].
    + destruct n as [|[|[|]]]; try lia; reflexivity.
  - intros (NI & F). eexists. split; [constructor|]. apply assemble_tag. rewrite flat_map_flat_map. apply siblings_map. intros l I. change (beqb (B "pre") (B "pre")) with true. reflexivity.
  - intros (HH & FH & NR & RR & FR & F). eexists. split; [constructor|]. apply assemble_tag. change (beqb (B "table") (B "pre")) with false. cbn [siblings].
    rewrite (assemble_tag fuel false (B "thead") _ (element (B "tr") (flat_map (element (B "th")) head))).
    + cbn [bind]. rewrite (assemble_tag fuel false (B "tbody") _ (flat_map (fun r => element (B "tr") (flat_map (element (B "td")) r)) rows)).
      * cbn [bind]. rewrite app_nil_r. reflexivity.
      * apply siblings_map. intros r I. rewrite Forall_forall in F. destruct (F r I) as (_ & _ & FC). apply assemble_row; auto.
    + change (beqb (B "thead") (B "pre")) with false. cbn [siblings]. rewrite assemble_row by auto. cbn [bind]. rewrite app_nil_r. reflexivity.
Qed.
Lemma blocks_assembled fuel bs : (1 < fuel)%nat -> Forall block_ok bs -> exists hs, Forall2 block_html bs hs /\ assemble_html fuel (map block_node bs) = Ok (concat hs).
Proof.
  intro L. induction 1 as [|b bs OK _ (hs & F2 & E)]; [exists []; now split|]. destruct (block_assembled fuel b L OK) as (h & HB & EB). exists (h :: hs). split; [now constructor|].
  cbn [map assemble_html]. rewrite EB. cbn [bind]. rewrite E. reflexivity.
Qed.
Theorem blocks_rendered bs fuel : Forall block_ok bs -> (length (flat_map block_source bs) + 1 < fuel)%nat ->
  exists hs, Forall2 block_html bs hs /\ render_html fuel (flat_map block_source bs) = Ok (concat hs).
Proof.
  intros F L. assert (L2 := blocks_lines_length bs F). destruct (blocks_assembled fuel bs ltac:(lia) F) as (hs & F2 & E). exists hs. split; [exact F2|].
  unfold render_html, parse_markdown. rewrite blocks_split by auto. destruct (blocks_parsed bs fuel [] [] F ltac:(lia)) as (n & EN). cbn [app length] in EN. rewrite EN. cbn [bind]. exact E.
Qed.
Theorem fence_rendered lang code fuel : block_ok (Fence lang code) -> Forall (fun l => ~ In 38 l) code ->
  (length (block_source (Fence lang code)) + 1 < fuel)%nat ->
  exists body, render_html fuel (block_source (Fence lang code)) = Ok (B "<pre>" ++ body ++ B "</pre>" ++ [10]) /\
    ~ In 60 body /\ ~ In 62 body /\ shown_text body = flat_map line_of code.
Proof.
  intros OK NA L. assert (R := blocks_rendered [Fence lang code] fuel (Forall_cons _ OK (Forall_nil _))).
  cbn [flat_map] in R. rewrite app_nil_r in R. destruct (R L) as (hs & F2 & E). inversion F2 as [|? h ? ? HB F0]; subst. inversion F0; subst. inversion HB; subst. cbn [concat] in E. rewrite app_nil_r in E.
  exists (entities (flat_map line_of code)). destruct (entities_safe (flat_map line_of code)) as (S1 & S2). split; [|split; [exact S1|split; [exact S2|]]].
  - rewrite E. unfold element. reflexivity.
  - apply entities_read. rewrite in_flat_map. intros (l & I & J). rewrite Forall_forall in NA. unfold line_of in J. rewrite in_app_iff in J. destruct J as [J|[J|[]]]; [now apply (NA l I)|lia].
Qed.
