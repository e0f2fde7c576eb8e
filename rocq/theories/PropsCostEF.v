(** * How many iterations the loops of the Elias-Fano queries take. *)
From Verif Require Import Base Spec BaseFacts WordFacts BitVecModel BitVecProofs BitVecProofs2
  RsVecModel RsVecProofs RsVecSelect RsEqProofs EFModel EFProofs EFQuery PropsEF CostModel PropsCost.

(** ** The binary search *)
Section Bin.
Variables (kk : nat) (up : bool) (e : ef) (ql qmu : N).

Lemma bin_cut_eq k : forall fuel lb ub lc, ub - lb <= 2 ^ N.of_nat k -> ub - lb <= 2 ^ N.of_nat fuel ->
  ef_bin_cut kk k false up e ql qmu lb ub lc = ef_bin fuel false up e ql qmu lb ub lc.
Proof.
  induction k as [|k IH]; intros fuel lb ub lc H1 H2.
  - change (2 ^ N.of_nat 0) with 1 in H1. clear H2.
    assert (E : ef_bin fuel false up e ql qmu lb ub lc = let* u1 := sub ub 1 in Ok (inr (lb, ub, lc))).
    { destruct fuel; cbn [ef_bin]; destruct (N.le_gt_cases 1 ub); try (rewrite sub_ok by lia; cbn [bind]; destruct (N.ltb_spec lb (ub - 1)); auto; lia);
        unfold sub; destruct (N.leb_spec 1 ub); auto; lia. }
    rewrite E. cbn [ef_bin_cut]. destruct (N.le_gt_cases 1 ub).
    + rewrite sub_ok by lia. cbn [bind]. destruct (N.ltb_spec lb (ub - 1)); auto; lia.
    + unfold sub. destruct (N.leb_spec 1 ub); auto; lia.
  - cbn [ef_bin_cut]. destruct (N.le_gt_cases 1 ub) as [M|M].
    2:{ destruct fuel; cbn [ef_bin]; unfold sub; destruct (N.leb_spec 1 ub); auto; lia. }
    destruct fuel as [|fuel]; cbn [ef_bin]; (rewrite (sub_ok ub 1) by exact M); cbn [bind]; destruct (N.ltb_spec lb (ub - 1)) as [L|L]; auto.
    + change (2 ^ N.of_nat 0) with 1 in H2. lia.
    + rewrite Nat2N.inj_succ, N.pow_succ_r' in H1, H2.
      set (P := 2 ^ N.of_nat k) in *. remember (2 ^ N.of_nat fuel) as Q eqn:EQ. clearbody P. rewrite sub_ok by (clear EQ; lia). cbn [bind].
      rewrite N.shiftr_div_pow2. change (2 ^ 1) with 2. destruct (ef_low e (lb + (ub - lb) / 2)) as [mc| |]; auto. cbn [bind].
      assert (lb + (ub - lb) / 2 - lb <= P /\ ub - (lb + (ub - lb) / 2) <= P /\
        lb + (ub - lb) / 2 - lb <= Q /\ ub - (lb + (ub - lb) / 2) <= Q) as (? & ? & ? & ?) by (clear IH EQ; dlia).
      rewrite EQ in *. destruct (ql <? mc); [apply IH; auto|]. destruct (mc =? ql); auto.
Qed.
End Bin.

Lemma pow_of_nat n : n <= 2 ^ N.of_nat (N.to_nat n).
Proof. rewrite N2Nat.id. pose proof (N.pow_gt_lin_r 2 n). lia. Qed.

(** The linear search in front, when the binary searches agree; [Inv c] holds when the loop has got to step [c]. *)
Lemma linear_cut_eq (Inv : N -> Prop) s0 kb kk index up e siu sil qu ql qmu fuel : forall c lc,
  Inv c -> (forall c p b, Inv c -> dir up siu (c + 1) = Ok p -> rs_get_unchecked (ef_upper e) p = Ok b -> 0 < b -> Inv (c + 1)) ->
  (forall c p b i nc lc, Inv (c + 1) -> dir up siu (c + 1) = Ok p -> rs_get_unchecked (ef_upper e) p = Ok b -> 0 < b ->
     dir up sil c = Ok i -> ef_low e i = Ok nc -> (if up then nc < ql else ql < nc) -> c + 1 = 4 -> lc = nc ->
     ef_binary_cut s0 kb kk index up e sil qu ql qmu (c + 1) lc = ef_binary index up e sil qu ql qmu (c + 1) lc) ->
  ef_linear_cut s0 kb kk fuel index up e siu sil qu ql qmu c lc = ef_linear fuel index up e siu sil qu ql qmu c lc.
Proof.
  induction fuel as [|fuel IH]; intros c lc HI HS H; cbn [ef_linear_cut ef_linear]; [reflexivity|].
  destruct (dir up siu (c + 1)) as [p| |] eqn:E1; cbn [bind]; [|reflexivity|reflexivity].
  destruct (rs_get_unchecked (ef_upper e) p) as [b| |] eqn:E2; cbn [bind]; [|reflexivity|reflexivity].
  destruct (N.ltb_spec 0 b) as [Hb|]; [|reflexivity].
  destruct (dir up sil c) as [i| |] eqn:E3; cbn [bind]; [|reflexivity|reflexivity].
  destruct (ef_low e i) as [nc| |] eqn:E4; cbn [bind]; [|reflexivity|reflexivity].
  destruct (if up then ql <? nc else nc <? ql) eqn:E5; [reflexivity|].
  destruct (N.eqb_spec nc ql) as [|Hn]; [reflexivity|]. destruct (N.eqb_spec (c + 1) 4) as [E6|]; [|apply IH; eauto].
  apply (H c p b i nc nc (HS c p b HI E1 E2 Hb) E1 E2 Hb E3 E4); auto. destruct up; lia.
Qed.

Lemma search_cut_eq (Inv : N -> Prop) kb kk index up e siu sil q qu ql qmu :
  Inv 0 -> (forall c p b, Inv c -> dir up siu (c + 1) = Ok p -> rs_get_unchecked (ef_upper e) p = Ok b -> 0 < b -> Inv (c + 1)) ->
  (forall c p b i nc lc, Inv (c + 1) -> dir up siu (c + 1) = Ok p -> rs_get_unchecked (ef_upper e) p = Ok b -> 0 < b ->
     dir up sil c = Ok i -> ef_low e i = Ok nc -> (if up then nc < ql else ql < nc) -> c + 1 = 4 -> lc = nc ->
     ef_binary_cut rs_select0 kb kk index up e sil qu ql qmu (c + 1) lc = ef_binary index up e sil qu ql qmu (c + 1) lc) ->
  ef_search_cut rs_select0 rs_select1 kb kk index up e siu sil q qu ql qmu = ef_search index up e siu sil q qu ql qmu.
Proof.
  intros HI HS H. unfold ef_search_cut, ef_search. destruct (dir up siu 1) as [p| |] eqn:E1; cbn [bind]; [|reflexivity|reflexivity].
  destruct (rs_get_unchecked (ef_upper e) p) as [b| |] eqn:E2; cbn [bind]; [|reflexivity|reflexivity].
  destruct (N.ltb_spec 0 b) as [Hb|]; [|reflexivity]. destruct (ef_low e sil) as [lc| |]; cbn [bind]; [|reflexivity|reflexivity].
  destruct (nye index up (N.lor qmu lc) q); [|reflexivity]. rewrite (linear_cut_eq Inv); [reflexivity| |exact HS|exact H]. exact (HS 0 p b HI E1 E2 Hb).
Qed.

Section Cost.
Variables (data : list N) (w : N) (e : ef).
Hypothesis Hsorted : nondecreasing data.
Hypothesis Hwords : Forall (fun x => x < U64) data.
Hypothesis Hne : 0 < lenN data.
Hypothesis Hw : w < 64.
Hypothesis G : ef_good data w e.
Local Notation n := (lenN data).
Local Notation D := (nthN 0 data).
Local Notation W := (eW data).
Local Notation L := (eL data w).
Local Notation C := (eC data w).
Variables kb kk : nat.
Hypothesis Hkb : n <= 2 ^ N.of_nat kb.

(** Predecessor and successor: at most [log2 n] halvings. *)
Lemma binary_cut_eq up sil qu ql qmu c lc : qu <= eU data w (n - 1) -> 4 <= c -> (up = false -> sil < n) ->
  ef_binary_cut rs_select0 kb kk false up e sil qu ql qmu c lc = ef_binary false up e sil qu ql qmu c lc.
Proof.
  intros Hqu Hc Hsil. unfold ef_binary_cut, ef_binary. pose proof (N.le_0_l qu) as Hqu0.
  pose proof (eC_le data w Hsorted Hwords Hne Hw (qu + 1)) as C1. pose proof (eC_le data w Hsorted Hwords Hne Hw qu) as C0.
  destruct up; [|specialize (Hsil eq_refl)]; rewrite (sel0 data w e) by (auto; lia); cbn [bind dir].
  - rewrite sub_ok by lia. cbn [bind].
    destruct (sub (qu + 1 + C (qu + 1) - qu) 2) as [be| |] eqn:Eb; auto. cbn [bind].
    unfold sub in Eb. destruct (N.leb_spec 2 (qu + 1 + C (qu + 1) - qu)); [injection Eb as <-|discriminate].
    rewrite sub_ok by lia. cbn [bind].
    rewrite (bin_cut_eq kk true e ql qmu kb (N.to_nat (qu + 1 + C (qu + 1) - qu - 2))); auto; [lia|].
    pose proof (pow_of_nat (qu + 1 + C (qu + 1) - qu - 2)). lia.
  - rewrite sub_ok by lia. cbn [bind].
    destruct (sub sil c) as [cur| |] eqn:Ec; auto. cbn [bind].
    unfold sub in Ec. destruct (N.leb_spec c sil); [injection Ec as <-|discriminate].
    rewrite (bin_cut_eq kk false e ql qmu kb (N.to_nat (sil - c + 1))); auto; [lia|].
    pose proof (pow_of_nat (sil - c + 1)). lia.
Qed.

Lemma get_unchecked_cut_eq i : ef_get_unchecked_cut rs_select1 e i = ef_get_unchecked e i.
Proof. reflexivity. Qed.

Theorem predecessor_cut q : ef_predecessor_cut rs_select0 rs_select1 kb kk e q = ef_predecessor e q.
Proof.
  unfold ef_predecessor_cut, ef_predecessor, ef_predecessor_unchecked.
  rewrite (eg_zero _ _ _ G), (eg_n _ _ _ G), (eg_max _ _ _ G), (eg_w _ _ _ G).
  destruct (N.ltb_spec q (D 0)) as [H0|H0]; cbn [orb]; [reflexivity|]. destruct (n =? 0); [reflexivity|].
  destruct (N.ltb_spec (D (n - 1)) q) as [Hm|Hm]; [reflexivity|].
  destruct (prep data w e Hsorted Hwords Hne Hw G q H0 Hm) as [P1 P2]. rewrite sub_ok by lia. cbn [bind].
  rewrite N.shiftr_div_pow2. pose proof (qu_le data w e Hsorted Hwords Hne Hw G _ P1). pose proof (N.le_0_l ((q - D 0) / 2 ^ w)).
  rewrite (sel0 data w e) by (auto; lia). cbn [bind]. rewrite sub_ok by lia. cbn [bind].
  rewrite shl64_chk_exact by auto. cbn [bind].
  replace ((q - D 0) / 2 ^ w + C ((q - D 0) / 2 ^ w) - (q - D 0) / 2 ^ w) with (C ((q - D 0) / 2 ^ w)) by lia.
  rewrite (search_cut_eq (fun _ => True)); [reflexivity|auto|auto|]. intros. apply binary_cut_eq; try lia; auto.
Qed.

Theorem successor_cut q : ef_successor_cut rs_select0 rs_select1 kb kk e q = ef_successor e q.
Proof.
  unfold ef_successor_cut, ef_successor, ef_successor_unchecked.
  rewrite (eg_zero _ _ _ G), (eg_n _ _ _ G), (eg_max _ _ _ G), (eg_w _ _ _ G).
  destruct (N.ltb_spec (D (n - 1)) q) as [Hm|Hm]; cbn [orb]; [reflexivity|]. destruct (n =? 0); [reflexivity|].
  destruct (N.ltb_spec q (D 0)) as [H0|H0]; [reflexivity|].
  destruct (prep data w e Hsorted Hwords Hne Hw G q H0 Hm) as [P1 P2]. rewrite sub_ok by lia. cbn [bind].
  rewrite N.shiftr_div_pow2. pose proof (qu_le data w e Hsorted Hwords Hne Hw G _ P1). pose proof (N.le_0_l ((q - D 0) / 2 ^ w)).
  rewrite (sel0 data w e) by (auto; lia). cbn [bind]. rewrite sub_ok by lia. cbn [bind].
  pose proof (eC_le data w Hsorted Hwords Hne Hw ((q - D 0) / 2 ^ w + 1)).
  match goal with |- context [sub ?a 2] => destruct (sub a 2) as [sil| |] eqn:Es end; cbn [bind]; [|reflexivity|reflexivity].
  unfold sub in Es. match type of Es with (if ?c then _ else _) = _ => destruct c; [injection Es as <-|discriminate] end.
  rewrite shl64_chk_exact by auto. cbn [bind].
  rewrite (search_cut_eq (fun _ => True)); [reflexivity|auto|auto|]. intros. apply binary_cut_eq; try lia; auto.
Qed.

(** Rank: the loop stepping back visits the elements equal to the query. *)
Lemma back_cost q fuel : reach data w q -> forall c,
  let R := cnt (fun k => W k <? q) n in
  C (q / 2 ^ w) < R -> R <= c -> c < C (q / 2 ^ w + 1) -> L c = q mod 2 ^ w ->
  ef_back fuel e (q mod 2 ^ w) c = if c - R <? N.of_nat fuel then Ok R else Diverge.
Proof.
  intros Hq c R H0 H1 H2 E. destruct (N.ltb_spec (c - R) (N.of_nat fuel)) as [Hf|Hf].
  { exact (ef_back_ok data w e Hsorted Hwords Hne Hw G q Hq true fuel c eq_refl H0 H1 H2 E Hf). }
  revert c H1 H2 E Hf. induction fuel as [|fuel IH]; intros c H1 H2 E Hf; cbn [ef_back]; auto.
  rewrite sub_ok by lia. cbn [bind].
  rewrite (low_block data w e Hsorted Hwords Hne Hw G q Hq) by lia. cbn [bind].
  assert (El : L (c - 1) = q mod 2 ^ w).
  { pose proof (b_le data w e Hsorted Hwords Hne Hw G q Hq) as [B1 B2].
    destruct (cmp_in data w e Hsorted Hwords Hne Hw G q Hq c ltac:(lia) H2) as (_ & _ & _ & E4). apply E4 in E.
    pose proof (eW_mono data w Hsorted Hwords Hne Hw (c - 1) c ltac:(lia) ltac:(lia)).
    destruct (cmp_in data w e Hsorted Hwords Hne Hw G q Hq (c - 1) ltac:(lia) ltac:(lia)) as (_ & _ & _ & E5). apply E5.
    pose proof (R_lt data w e Hsorted Hwords Hne Hw G q Hq true (c - 1) ltac:(lia)) as HR. cbv beta iota in HR. fold R in HR. lia. }
  rewrite El, N.eqb_refl. apply IH; auto; lia.
Qed.

Lemma bin_cut_rank q : reach data w q -> let R := cnt (fun k => W k <? q) n in
  (forall c, R <= c -> c < C (q / 2 ^ w + 1) -> L c = q mod 2 ^ w -> c - R < N.of_nat kk) ->
  forall k fuel lb ub lc,
  C (q / 2 ^ w) < lb -> lb < R -> lb <= ub -> ub < C (q / 2 ^ w + 1) ->
  ub - lb <= 2 ^ N.of_nat k -> ub - lb <= 2 ^ N.of_nat fuel ->
  ef_bin_cut kk k true true e (q mod 2 ^ w) (q / 2 ^ w * 2 ^ w) lb ub lc = ef_bin fuel true true e (q mod 2 ^ w) (q / 2 ^ w * 2 ^ w) lb ub lc.
Proof.
  intros Hq R Hkk. induction k as [|k IH]; intros fuel lb ub lc H1 H2 H3 H4 H5 H6.
  - change (2 ^ N.of_nat 0) with 1 in H5. clear H6. cbn [ef_bin_cut]. 
    destruct fuel; cbn [ef_bin]; (rewrite sub_ok by lia); cbn [bind]; (destruct (N.ltb_spec lb (ub - 1)); [lia|reflexivity]).
  - cbn [ef_bin_cut].
    destruct fuel as [|fuel]; cbn [ef_bin]; (rewrite (sub_ok ub 1) by (clear H5 H6; lia)); cbn [bind];
      (destruct (N.ltb_spec lb (ub - 1)) as [Hl|Hl]; [|reflexivity]).
    + change (2 ^ N.of_nat 0) with 1 in H6. lia.
    + rewrite Nat2N.inj_succ, N.pow_succ_r' in H5, H6.
      remember (2 ^ N.of_nat k) as P eqn:EP. remember (2 ^ N.of_nat fuel) as Q eqn:EQ. rewrite sub_ok by (clear EP EQ; lia). cbn [bind].
      rewrite N.shiftr_div_pow2. change (2 ^ 1) with 2. set (mid := lb + (ub - lb) / 2).
      assert (mid - lb <= P /\ ub - mid <= P /\ mid - lb <= Q /\ ub - mid <= Q /\ lb < mid /\ mid < ub) as (? & ? & ? & ? & ? & ?)
        by (clear IH EP EQ Hkk; unfold mid; dlia).
      pose proof (R_in data w e Hsorted Hwords Hne Hw G q Hq true mid ltac:(clear - H1 H3 H4 H7 H8; lia) ltac:(lia)) as HR. cbv iota beta in HR. fold R in HR.
      rewrite (low_block data w e Hsorted Hwords Hne Hw G q Hq) by lia. cbn [bind].
      destruct (N.ltb_spec (q mod 2 ^ w) (L mid)); [rewrite EQ in *; apply IH; auto; lia|].
      destruct (N.eqb_spec (L mid) (q mod 2 ^ w)) as [E|E]; [|rewrite EQ in *; apply IH; auto; lia].
      rewrite !back_cost by (auto; lia). fold R.
      destruct (N.ltb_spec (mid - R) (N.of_nat kk)) as [A|A]; [|specialize (Hkk mid ltac:(lia) ltac:(lia) E); lia].
      destruct (N.ltb_spec (mid - R) (N.of_nat (N.to_nat mid))); [reflexivity|]. lia.
Qed.

(** The elements equal to the query are consecutive. *)
Lemma equal_run q : reach data w q -> let R := cnt (fun k => W k <? q) n in
  forall c, R <= c -> c < C (q / 2 ^ w + 1) -> C (q / 2 ^ w) <= c -> L c = q mod 2 ^ w -> c - R < cnt (fun k => W k =? q) n.
Proof.
  intros Hq R c H1 H2 H0 E. destruct (b_le data w e Hsorted Hwords Hne Hw G q Hq) as [B1 B2].
  destruct (cmp_in data w e Hsorted Hwords Hne Hw G q Hq c H0 H2) as (_ & _ & _ & E4). apply E4 in E.
  assert (X : forall k, R <= k -> k <= c -> W k = q).
  { intros k K1 K2. pose proof (eW_mono data w Hsorted Hwords Hne Hw k c ltac:(lia) ltac:(lia)).
    pose proof (R_lt data w e Hsorted Hwords Hne Hw G q Hq true k ltac:(lia)) as HR. cbv beta iota in HR. fold R in HR. lia. }
  replace n with (R + ((c + 1 - R) + (n - (c + 1)))) by lia. rewrite !cnt_add.
  rewrite (cnt_ext (fun i => W (R + i) =? q) (fun _ => true) (c + 1 - R)).
  - rewrite cnt_true. lia.
  - intros i Hi. rewrite X by lia. apply N.eqb_refl.
Qed.

Lemma binary_cut_rank q c : reach data w q -> cnt (fun k => W k =? q) n <= N.of_nat kk ->
  let qu := q / 2 ^ w in
  c = 4 -> C qu + 3 < C (qu + 1) -> L (C qu + 3) < q mod 2 ^ w -> forall lc,
  ef_binary_cut rs_select0 kb kk true true e (C qu) qu (q mod 2 ^ w) (qu * 2 ^ w) c lc =
  ef_binary true true e (C qu) qu (q mod 2 ^ w) (qu * 2 ^ w) c lc.
Proof.
  intros Hq Hkk qu -> Hb Hl lc. unfold ef_binary_cut, ef_binary. pose proof (N.le_0_l qu) as Hqu0.
  pose proof (qu_le data w e Hsorted Hwords Hne Hw G q Hq) as Hqu. fold qu in Hqu.
  destruct (b_le data w e Hsorted Hwords Hne Hw G q Hq) as [B1 B2]. fold qu in B1, B2.
  pose proof (R_in data w e Hsorted Hwords Hne Hw G q Hq true (C qu + 3) ltac:(fold qu; lia) Hb) as HR. cbv iota beta in HR.
  rewrite (sel0 data w e) by (auto; lia). cbn [bind dir]. rewrite sub_ok by lia. cbn [bind]. rewrite sub_ok by lia. cbn [bind].
  rewrite sub_ok by lia. cbn [bind].
  replace (qu + 1 + C (qu + 1) - qu - 2) with (C (qu + 1) - 1) by lia. replace (C qu + 4 - 1) with (C qu + 3) by lia.
  unfold qu in *. rewrite (bin_cut_rank q Hq) with (fuel := N.to_nat (C (q / 2 ^ w + 1) - 1)); auto; try lia.
  - intros c H1 H2 H3. destruct (N.le_gt_cases (C (q / 2 ^ w)) c).
    + pose proof (equal_run q Hq c H1 H2 ltac:(auto) H3). lia.
    + lia.
  - pose proof (pow_of_nat (C (q / 2 ^ w + 1) - 1)). lia.
Qed.

Theorem rank_cut q : cnt (fun k => D k =? q) n <= N.of_nat kk ->
  ef_rank_cut rs_select0 rs_select1 kb kk e q = ef_rank e q.
Proof.
  intros Hkk. unfold ef_rank_cut, ef_rank.
  rewrite (eg_zero _ _ _ G), (eg_n _ _ _ G), (eg_max _ _ _ G), (eg_w _ _ _ G).
  destruct (N.ltb_spec (D (n - 1)) q) as [Hm|Hm]; cbn [orb]; [reflexivity|]. destruct (n =? 0); [reflexivity|].
  destruct (N.ltb_spec q (D 0)) as [H0|H0]; [reflexivity|].
  destruct (prep data w e Hsorted Hwords Hne Hw G q H0 Hm) as [P1 P2]. rewrite sub_ok by lia. cbn [bind].
  rewrite N.shiftr_div_pow2, land_lowmask by auto.
  assert (Hkk' : cnt (fun k => W k =? q - D 0) n <= N.of_nat kk).
  { rewrite (cnt_ext _ (fun k => D k =? q)); auto. intros k Hk. unfold eW.
    pose proof (D_0_le data w e Hsorted Hwords Hne Hw G k Hk). lia. }
  set (v := q - D 0) in *. set (qu := v / 2 ^ w) in *.
  pose proof (qu_le data w e Hsorted Hwords Hne Hw G _ P1) as Hqu. fold qu in Hqu. pose proof (N.le_0_l qu).
  rewrite (sel0 data w e) by (auto; lia). cbn [bind]. rewrite sub_ok by lia. cbn [bind].
  rewrite shl64_chk_exact by auto. cbn [bind]. replace (qu + C qu - qu) with (C qu) by lia.
  destruct (b_le data w e Hsorted Hwords Hne Hw G v P1) as [B1 B2]. fold qu in B1, B2.
  apply (search_cut_eq (fun c => C qu + c <= C (qu + 1))).
  - lia.
  - intros c p b HI E1 E2 Hb. cbn [dir] in E1. injection E1 as <-.
    rewrite (block_bit data w e Hsorted Hwords Hne Hw G) in E2 by lia. injection E2 as <-.
    destruct (N.leb_spec (c + 1) (C (qu + 1) - C qu)) as [Hin|Hin]; [lia|]. rewrite andb_false_r in Hb. cbn in Hb. lia.
  - intros c p b i nc lc HI E1 E2 Hb E3 E4 Hlt Ec _. cbn [dir] in E3. injection E3 as <-. replace c with 3 in * by lia.
    rewrite (low_block data w e Hsorted Hwords Hne Hw G v P1) in E4 by (fold qu; lia). injection E4 as <-.
    apply binary_cut_rank; auto. fold qu. lia.
Qed.
End Cost.

(** ** C92 *)
Lemma log_budget n k : N.log2_up n <= N.of_nat k -> n <= 2 ^ N.of_nat k.
Proof.
  intros H. assert (2 ^ N.log2_up n <= 2 ^ N.of_nat k) by (apply N.pow_le_mono_r; lia).
  destruct (N.le_gt_cases n 1) as [L|L]; [assert (2 ^ N.of_nat k <> 0) by (apply N.pow_nonzero; lia); lia|].
  pose proof (proj2 (N.log2_up_spec n L)). lia.
Qed.
Theorem C92_search data w e q kb kk :
  nondecreasing data -> Forall (fun x => x < 2 ^ 64) data -> w < 64 -> ef_from_slice w data = Ok e ->
  N.log2_up (lenN data) <= N.of_nat kb ->
  ef_predecessor_cut rs_select0 rs_select1 kb kk e q = ef_predecessor e q /\
  ef_successor_cut rs_select0 rs_select1 kb kk e q = ef_successor e q.
Proof.
  intros Hs Hd Hw E Hk. apply log_budget in Hk. destruct (ef_built data w e Hs Hd Hw E) as [(-> & En & Ez & _)|[Hne G]].
  - unfold ef_predecessor_cut, ef_predecessor, ef_successor_cut, ef_successor. rewrite En. cbn [N.eqb]. rewrite !orb_true_r. auto.
  - split; [apply (predecessor_cut data w)|apply (successor_cut data w)]; auto.
Qed.

(** ** C93 *)
Theorem C93_rank data w e q kb kk :
  nondecreasing data -> Forall (fun x => x < 2 ^ 64) data -> w < 64 -> ef_from_slice w data = Ok e ->
  N.log2_up (lenN data) <= N.of_nat kb -> lenN (filter (fun x => x =? q) data) <= N.of_nat kk ->
  ef_rank_cut rs_select0 rs_select1 kb kk e q = ef_rank e q.
Proof.
  intros Hs Hd Hw E Hk Hq. apply log_budget in Hk. destruct (ef_built data w e Hs Hd Hw E) as [(-> & En & Ez & _)|[Hne G]].
  - unfold ef_rank_cut, ef_rank. rewrite En. cbn [N.eqb]. now rewrite orb_true_r.
  - apply (rank_cut data w); auto. now rewrite (cnt_filter (fun x => x =? q)).
Qed.

(** ** The documented worst case *)
Definition dense (n : N) : list N := replicate (n - 1) 0 ++ [1].
Lemma dense_len n : 0 < n -> lenN (dense n) = n.
Proof. intros. unfold dense. rewrite lenN_app, lenN_replicate. cbn. lia. Qed.
Lemma dense_nth n i : i < n -> nthN 0 (dense n) i = if i =? n - 1 then 1 else 0.
Proof.
  intros H. unfold dense. rewrite nthN_app, lenN_replicate.
  destruct (N.ltb_spec i (n - 1)), (N.eqb_spec i (n - 1)); try lia.
  - now apply nthN_replicate.
  - subst. now rewrite N.sub_diag.
Qed.
Lemma dense_sorted n : 0 < n -> nondecreasing (dense n).
Proof.
  intros Hn i j x y Hij Hx Hy. pose proof (getN_some_lt _ _ _ Hy) as Hj. rewrite dense_len in Hj by auto.
  apply getN_Some_inv in Hx, Hy. destruct Hx as [_ Hx], Hy as [_ Hy]. rewrite <- (Hx 0), <- (Hy 0). clear Hx Hy. rewrite !dense_nth by lia.
  destruct (N.eqb_spec i (n - 1)), (N.eqb_spec j (n - 1)); lia.
Qed.
Lemma dense_words n : Forall (fun x => x < 2 ^ 64) (dense n).
Proof.
  apply Forall_app. split; [|repeat constructor]. apply Forall_forall. intros x Hx. apply repeat_spec in Hx. now subst.
Qed.
Lemma dense_width t : 1 <= t -> ef_width (dense (3 * 2 ^ t)) = 0.
Proof.
  intros Ht. assert (2 <= 2 ^ t) by (change 2 with (2 ^ 1) at 1; apply N.pow_le_mono_r; lia).
  unfold ef_width. rewrite dense_len, !dense_nth, N.eqb_refl by lia.
  destruct (N.eqb_spec 0 (3 * 2 ^ t - 1)); [lia|]. rewrite (N.max_l (3 * 2 ^ t)) by lia. change (N.log2_up (N.max (1 - 0) 2)) with 1.
  assert (E1 : N.log2_up (3 * 2 ^ t) = N.succ (t + 1)).
  { apply N.log2_up_unique; [lia|]. rewrite N.pred_succ, N.pow_succ_r', N.pow_add_r. change (2 ^ 1) with 2. lia. }
  assert (E2 : N.log2_up (3 * 2 ^ t + 2) = N.succ (t + 1)).
  { apply N.log2_up_unique; [lia|]. rewrite N.pred_succ, N.pow_succ_r', N.pow_add_r. change (2 ^ 1) with 2. lia. }
  rewrite E1, E2. lia.
Qed.

Lemma dense_select n e j k : 1 < n -> ef_good (dense n) 0 e -> 1 <= j -> j <= 2 -> N.of_nat k < n / 8192 ->
  rs_select0_cut k k (ef_upper e) j = Diverge.
Proof.
  intros Hn G Hj1 Hj2 Hk.
  pose proof (dense_sorted n ltac:(lia)) as Hs. pose proof (dense_words n) as Hd. pose proof (dense_len n ltac:(lia)) as Hl.
  assert (Hne : 0 < lenN (dense n)) by lia. assert (Hw : 0 < 64) by lia.
  destruct (up_bits (dense n) 0 e Hs Hd Hne Hw G) as (bv & B1 & B2 & B3 & B4 & B5). rewrite Hl in B3, B4, B5.
  assert (EU : eU (dense n) 0 (n - 1) = 1).
  { unfold eU, eW. rewrite !dense_nth, N.eqb_refl by lia. destruct (N.eqb_spec 0 (n - 1)); [lia|reflexivity]. }
  rewrite EU in B3, B4, B5.
  assert (Hc : count false (bits bv) = 3).
  { rewrite count_bits_false, B3, cnt_zbit, B5 by lia. rewrite (cnt_ext _ (fun _ => true)), cnt_true; [lia|].
    intros i Hi. unfold ePos. pose proof (eU_mono (dense n) 0 Hs Hd Hne Hw i (n - 1) ltac:(lia) ltac:(rewrite Hl; lia)) as M. rewrite EU in M. lia. }
  pose proof (sel0 (dense n) 0 e Hs Hd Hne Hw G j) as Hsel. rewrite Hl, EU in Hsel. specialize (Hsel ltac:(lia)).
  rewrite (rs_select0_ok bv) in Hsel by auto. injection Hsel as Hsel.
  assert (HC : n - 1 <= eC (dense n) 0 j).
  { assert (E : n - 2 < eC (dense n) 0 j); [|lia]. apply (eC_lt (dense n) 0 Hs Hd Hne Hw j (n - 2)); [rewrite Hl; lia|].
    unfold eU, eW. rewrite !dense_nth by lia. destruct (N.eqb_spec (n - 2) (n - 1)), (N.eqb_spec 0 (n - 1)); lia. }
  destruct (select0_cost bv (ef_upper e) j B1 B2 ltac:(lia)) as [_ X]. rewrite X by (rewrite Hc, !N.div_small by lia; reflexivity). clear X.
  unfold sample_super. destruct (N.ltb_spec j 8192); [|lia]. rewrite Hsel.
  pose proof (N.div_le_mono n (j + eC (dense n) 0 j) 8192 ltac:(lia) ltac:(lia)).
  destruct (N.leb_spec ((j + eC (dense n) 0 j) / 8192 - 0) (N.of_nat k)); [lia|reflexivity].
Qed.

(** More than any multiple of the logarithm. *)
Lemma dense_big c : exists n t, n = 3 * 2 ^ t /\ 1 <= t /\ c * (N.log2 n + 1) < n / 8192.
Proof.
  exists (3 * 2 ^ (c + 8 + 13)), (c + 8 + 13). split; [reflexivity|]. split; [lia|].
  replace (3 * 2 ^ (c + 8 + 13)) with (3 * 2 ^ (c + 8) * 8192) by (rewrite (N.pow_add_r 2 (c + 8)); change (2 ^ 13) with 8192; lia).
  rewrite N.div_mul by lia. pose proof (pow_beats c) as P.
  assert (N.log2 (3 * 2 ^ (c + 8) * 8192) < c + 8 + 15).
  { assert (2 ^ (c + 8) <> 0) by (apply N.pow_nonzero; lia). apply N.log2_lt_pow2; [lia|]. rewrite (N.pow_add_r 2 (c + 8)). change (2 ^ 15) with 32768. lia. }
  nia.
Qed.

Theorem C92_refuted : ~ exists c, forall data e q,
  nondecreasing data -> Forall (fun x => x < 2 ^ 64) data -> ef_from_slice (ef_width data) data = Ok e -> q < 2 ^ 64 ->
  let k := N.to_nat (c * (N.log2 (lenN data) + 1)) in
  ef_predecessor_cut (rs_select0_cut k k) (rs_select1_cut k k) k k e q = ef_predecessor e q \/
  ef_successor_cut (rs_select0_cut k k) (rs_select1_cut k k) k k e q = ef_successor e q.
Proof.
  intros (c & H). destruct (dense_big c) as (n & t & En & Ht & Hb).
  assert (2 <= 2 ^ t) by (change 2 with (2 ^ 1) at 1; apply N.pow_le_mono_r; lia).
  assert (Hn : 1 < n) by lia.
  pose proof (dense_sorted n ltac:(lia)) as Hs. pose proof (dense_words n) as Hd. pose proof (dense_len n ltac:(lia)) as Hl.
  assert (Hne : 0 < lenN (dense n)) by lia.
  destruct (ef_from_slice_ok (dense n) 0) as (e & E & G); auto; [lia|].
  pose proof (dense_width t Ht) as Hw. rewrite <- En in Hw.
  specialize (H (dense n) e 1 Hs Hd ltac:(now rewrite Hw) ltac:(lia)). cbn zeta in H. rewrite Hl in H. set (k := N.to_nat _) in H.
  assert (Hk : N.of_nat k < n / 8192) by (unfold k; rewrite N2Nat.id; exact Hb).
  destruct (C22_predecessor (dense n) 0 e 1 Hs Hd ltac:(lia) E ltac:(lia)) as (o1 & Eo1 & _).
  destruct (C23_successor (dense n) 0 e 1 Hs Hd ltac:(lia) E ltac:(lia)) as (o2 & Eo2 & _).
  rewrite Eo1, Eo2 in H. unfold ef_predecessor_cut, ef_successor_cut in H.
  rewrite (eg_zero _ _ _ G), (eg_n _ _ _ G), (eg_max _ _ _ G), (eg_w _ _ _ G), Hl, !dense_nth, N.eqb_refl in H by lia.
  destruct (N.eqb_spec 0 (n - 1)); [lia|]. destruct (N.eqb_spec n 0); [lia|].
  change (1 <? 0) with false in H. change (1 <? 1) with false in H. change (sub 1 0) with (Ok 1) in H. cbn [orb bind] in H. change (N.shiftr 1 0) with 1 in H.
  rewrite (dense_select n e 1 k) in H by (auto; lia). rewrite (dense_select n e (1 + 1) k) in H by (auto; lia).
  cbn [bind] in H. destruct H; discriminate.
Qed.

Definition cost_data : list N := [0; 1; 2; 3; 4; 5; 5; 5; 6; 6; 6; 6; 6; 6; 6; 7; 20].
(** Seventeen elements: one halving is not enough, two are. *)
Example C92_ex : match ef_from_slice 3 cost_data with
  | Ok e => ef_predecessor_cut rs_select0 rs_select1 1 0 e 5 = Diverge /\
      ef_predecessor_cut rs_select0 rs_select1 5 0 e 5 = Ok (Some 5) /\ ef_successor_cut rs_select0 rs_select1 5 0 e 5 = Ok (Some 5)
  | _ => False
  end.
Proof. vm_compute. auto. Qed.
(** Seven elements are 6: one step back is not enough, two are. *)
Example C93_ex : match ef_from_slice 3 cost_data with
  | Ok e => ef_rank_cut rs_select0 rs_select1 5 1 e 6 = Diverge /\ ef_rank_cut rs_select0 rs_select1 5 7 e 6 = Ok 8
  | _ => False
  end.
Proof. vm_compute. auto. Qed.
