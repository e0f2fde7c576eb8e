(** * Properties C129 and C130: Elias-Fano queries in a release build. *)
From Verif Require Import Base Spec BaseFacts WordFacts BitVecModel BitVecProofs BitVecProofs2
  RsVecModel RsVecProofs RsVecSelect RsEqProofs EFModel EFProofs EFQuery PropsEF PropsEFUnchecked GenIterModel ReleaseModel PropsRelease
  UncheckedReleaseModel PropsUncheckedRelease PropsSurplus PropsStored WaveletBuild WaveletCount EFReleaseModel.

Local Notation wsub := wrapping_sub.
Local Notation wadd := wrapping_add.
Local Notation wmul := wrapping_mul.

(** ** Where a debug build answers, a release build computes the same. *)
Ltac binv H x E := apply bind_inv in H; destruct H as (x & E & H).
Lemma sub_inv a b c : sub a b = Ok c -> b <= a /\ c = a - b.
Proof. unfold sub. destruct (N.leb_spec b a); [|discriminate]. intros E. injection E as <-. auto. Qed.
Lemma add_sim a b v : add64 a b = Ok v -> wadd a b = v.
Proof. unfold add64, wadd. destruct (N.ltb_spec (a + b) U64); [|discriminate]. intros E. injection E as <-. now apply N.mod_small. Qed.
Lemma shl_sim a n v : shl64_chk a n = Ok v -> shl64 a n = v.
Proof. unfold shl64_chk. destruct (n <? 64); [|discriminate]. intros E. now injection E. Qed.
Lemma dir_sim up x k p : dir up x k = Ok p -> x < 2 ^ 64 -> p < 2 ^ 64 -> dir_rel up x k = p.
Proof.
  destruct up; cbn [dir dir_rel].
  - intros E _ Hp. injection E as <-. now apply wadd_lt.
  - intros E Hx _. apply sub_inv in E. destruct E as [H ->]. now apply wsub_ge.
Qed.

Section Sim.
Variable e : ef.
Hypothesis HU0 : forall j s, rs_select0 (ef_upper e) j = Ok s -> s + 64 <= 2 ^ 64.
Hypothesis HU1 : forall j s, rs_select1 (ef_upper e) j = Ok s -> s + 64 <= 2 ^ 64.
Hypothesis HR : forall p b, rs_get_unchecked (ef_upper e) p = Ok b -> p < 2 ^ 64.
Hypothesis HL : forall i v, ef_low e i = Ok v -> i * ef_w e < 2 ^ 64.
Hypothesis HV : forall i v, ef_low e i = Ok v -> v < 2 ^ 64.
Hypothesis HN : ef_n e < 2 ^ 64.

Lemma low_sim i v : ef_low e i = Ok v -> ef_low_rel e i = Ok v.
Proof using HL.
  intros E. pose proof (HL _ _ E) as H. unfold ef_low in E. unfold ef_low_rel, wmul. rewrite N.mod_small by exact H. exact E.
Qed.
Lemma get_sim i v : ef_get_unchecked e i = Ok v -> ef_get_unchecked_rel e i = Ok v.
Proof using All.
  intros E. unfold ef_get_unchecked in E. binv E s Es. pose proof (HU1 _ _ Es). binv E s1 E1. apply sub_inv in E1. destruct E1 as [L1 ->].
  binv E s2 E2. apply sub_inv in E2. destruct E2 as [L2 ->]. binv E lo El. binv E hi Eh. apply shl_sim in Eh. apply add_sim in E.
  unfold ef_get_unchecked_rel. rewrite Es. cbn [bind]. apply low_sim in El. unfold ef_low_rel in El. rewrite El. cbn [bind].
  rewrite (wsub_ge s i), (wsub_ge _ 1) by lia. now rewrite Eh, E.
Qed.
Lemma back_sim fuel : forall fuel' ql c v, (fuel <= fuel')%nat -> c < 2 ^ 64 -> ef_back fuel e ql c = Ok v -> ef_back_rel fuel' e ql c = Ok v.
Proof using All.
  induction fuel as [|fuel IH]; intros fuel' ql c v Hf Hc E; [discriminate|]. destruct fuel' as [|fuel']; [lia|]. cbn [ef_back ef_back_rel] in *.
  binv E c' Ec. apply sub_inv in Ec. destruct Ec as [L ->]. binv E l El. rewrite wsub_ge by auto. apply low_sim in El. rewrite El. cbn [bind].
  destruct (l =? ql); auto. apply IH; auto; lia.
Qed.
Lemma bin_sim fuel : forall fuel' index up ql qmu lb ub lc r, (fuel <= fuel')%nat -> lb + 1 < 2 ^ 64 -> ub < 2 ^ 64 ->
  ef_bin fuel index up e ql qmu lb ub lc = Ok r ->
  ef_bin_rel fuel' index up e ql qmu lb ub lc = Ok r /\
  forall lb' ub' lc', r = inr (lb', ub', lc') -> lb' + 1 < 2 ^ 64 /\ ub' < 2 ^ 64.
Proof using All.
  induction fuel as [|fuel IH]; intros fuel' index up ql qmu lb ub lc r Hf Hlb Hub E; cbn [ef_bin] in E; binv E u1 Eu;
    apply sub_inv in Eu; destruct Eu as [Lu ->]; destruct fuel' as [|fuel']; try lia; cbn [ef_bin_rel]; rewrite (wsub_ge ub 1) by auto;
    destruct (N.ltb_spec lb (ub - 1)) as [Hlt|Hlt]; try discriminate E.
  1,2,4: injection E as <-; split; [reflexivity|]; intros ? ? ? Eq; injection Eq as <- <- <-; auto.
  binv E d Ed. apply sub_inv in Ed. destruct Ed as [Ld ->]. rewrite (wsub_ge ub lb) by auto.
  assert (Hm : lb + N.shiftr (ub - lb) 1 < ub).
  { rewrite N.shiftr_div_pow2. change (2 ^ 1) with 2. clear - Hlt. assert (0 < ub - lb) by lia. pose proof (N.div_lt (ub - lb) 2 ltac:(lia) ltac:(lia)). lia. }
  rewrite wadd_lt by (clear - Hm Hub; lia). set (mid := lb + N.shiftr (ub - lb) 1) in *. clearbody mid.
  binv E mc Em. apply low_sim in Em. rewrite Em. cbn [bind].
  destruct (ql <? mc); [apply (IH fuel'); auto; lia|]. destruct (mc =? ql); [|apply (IH fuel'); auto; lia].
  destruct index.
  - binv E c Ec. injection E as <-. rewrite (back_sim (N.to_nat mid) (65 + N.to_nat mid) ql mid c) by (auto; lia). cbn [bind].
    split; [reflexivity|]. discriminate.
  - binv E v Ev. injection E as <-. apply add_sim in Ev. rewrite Ev. split; [reflexivity|]. discriminate.
Qed.
Lemma binary_sim index up sil qu ql qmu c lc o : 1 <= c -> (index = true -> up = true) -> sil < 2 ^ 64 -> (up = true -> sil + c < 2 ^ 64) ->
  ef_binary index up e sil qu ql qmu c lc = Ok o ->
  ef_binary_rel index up e sil qu ql qmu c lc = Ok o /\ forall c' lc', index = true -> o = Cont c' lc' -> sil + c' < 2 ^ 64.
Proof using All.
  intros Hc1 Hi Hs Hc E. unfold ef_binary in E. binv E be Ebe. binv E cur Ecur. binv E st Est.
  assert (Hbe : (if up then let* s := rs_select0 (ef_upper e) (wadd qu 1) in Ok (wsub (wsub s qu) 2)
    else let* s := rs_select0 (ef_upper e) qu in Ok (wsub s qu)) = Ok be /\ be + 2 < 2 ^ 64).
  { destruct up.
    - binv Ebe s Es. pose proof (HU0 _ _ Es). binv Ebe s1 E1. apply sub_inv in E1. destruct E1 as [L1 ->]. apply sub_inv in Ebe. destruct Ebe as [L2 ->].
      rewrite (wadd_lt qu 1) by lia. rewrite Es. cbn [bind]. rewrite (wsub_ge s qu), (wsub_ge _ 2) by lia. split; [reflexivity|lia].
    - binv Ebe s Es. pose proof (HU0 _ _ Es). apply sub_inv in Ebe. destruct Ebe as [L1 ->]. rewrite Es. cbn [bind]. rewrite wsub_ge by lia. split; [reflexivity|lia]. }
  destruct Hbe as [Ebr Hbe]. unfold ef_binary_rel. rewrite Ebr. cbn [bind]. clear Ebe Ebr.
  assert (Hcur : cur < 2 ^ 64).
  { destruct up; cbn [dir] in Ecur; [injection Ecur as <-; auto|]. apply sub_inv in Ecur. destruct Ecur as [_ ->]. lia. }
  rewrite (dir_sim _ _ _ _ Ecur) by auto.
  assert (Hst : (if up then wsub cur 1 else wadd cur 1) = st /\ (if up then st + 1 < 2 ^ 64 else st < 2 ^ 64)).
  { destruct up; cbn [dir] in Ecur.
    - apply sub_inv in Est. destruct Est as [L ->]. rewrite wsub_ge by auto. split; [reflexivity|lia].
    - injection Est as <-. apply sub_inv in Ecur. destruct Ecur as [L ->].
      rewrite wadd_lt by lia. split; [reflexivity|lia]. }
  destruct Hst as [Es Hst]. rewrite Es. clear Es Est Ecur.
  destruct (if up then (st, be) else (be, st)) as [lb ub] eqn:Elu.
  assert (Hlu : lb + 1 < 2 ^ 64 /\ ub < 2 ^ 64) by (destruct up; injection Elu as <- <-; lia). destruct Hlu as [Hlb Hub].
  binv E r Er. destruct (bin_sim (N.to_nat ub) (65 + N.to_nat ub) _ _ _ _ _ _ _ _ (Nat.le_add_l (N.to_nat ub) 65) Hlb Hub Er) as [Er' Hr]. rewrite Er'. cbn [bind].
  destruct r as [v|[[lb' ub'] lc']].
  { injection E as <-. split; [reflexivity|]. discriminate. }
  destruct (Hr _ _ _ eq_refl) as [Hlb' Hub']. binv E o' Eo.
  assert (Eo' : (if if up then (if up then lb' else ub') <? be else be <? (if up then lb' else ub') then
          let* cc := ef_low_rel e (dir_rel up (if up then lb' else ub') 1) in
          if nye index up cc ql then
            if index then Ok (Some (wadd (wadd (if up then lb' else ub') 1) 1))
            else Ok (Some (wadd (N.lor qmu cc) (ef_zero e)))
          else Ok None
        else Ok None) = Ok o').
  { destruct up.
    - destruct (N.ltb_spec lb' be) as [Hlt|]; [|exact Eo]. cbn [dir bind dir_rel] in *. rewrite wadd_lt by lia. binv Eo cc Ec. apply low_sim in Ec. rewrite Ec. cbn [bind].
      destruct (nye index true cc ql); auto. destruct index.
      + injection Eo as <-. rewrite wadd_lt by lia. reflexivity.
      + binv Eo v Ev. apply add_sim in Ev. now rewrite Ev.
    - destruct (N.ltb_spec be ub') as [Hlt|]; [|exact Eo]. cbn [dir bind dir_rel] in *. binv Eo p Ep. apply sub_inv in Ep. destruct Ep as [Lp ->]. rewrite wsub_ge by lia.
      binv Eo cc Ec. apply low_sim in Ec. rewrite Ec. cbn [bind].
      destruct (nye index false cc ql); auto. destruct index; [specialize (Hi eq_refl); discriminate|].
      binv Eo v Ev. apply add_sim in Ev. now rewrite Ev. }
  rewrite Eo'. cbn [bind]. destruct o' as [v|].
  { injection E as <-. split; [reflexivity|]. discriminate. }
  destruct index.
  - rewrite (Hi eq_refl) in *. binv E c' Ec. apply sub_inv in Ec. destruct Ec as [Lc ->]. injection E as <-.
    rewrite (wadd_lt lb' 1), wsub_ge by lia. split; [reflexivity|]. intros ? ? _ Eq. injection Eq as <- <-. lia.
  - injection E as <-. split; [reflexivity|]. discriminate.
Qed.
Lemma linear_sim fuel : forall index up siu sil qu ql qmu c lc o, (index = true -> up = true) -> siu < 2 ^ 64 -> sil < 2 ^ 64 ->
  (up = true -> sil <= siu) ->
  ef_linear fuel index up e siu sil qu ql qmu c lc = Ok o ->
  ef_linear_rel fuel index up e siu sil qu ql qmu c lc = Ok o /\ forall c' lc', index = true -> o = Cont c' lc' -> sil + c' < 2 ^ 64.
Proof using All.
  induction fuel as [|fuel IH]; intros index up siu sil qu ql qmu c lc o Hi Hu Hs Hle E; cbn [ef_linear] in E; binv E p Ep; binv E b Eb;
    pose proof (HR _ _ Eb) as Hp; cbn [ef_linear_rel]; rewrite (dir_sim _ _ _ _ Ep) by auto; rewrite Eb; cbn [bind];
    (assert (Hc : up = true -> sil + (c + 1) < 2 ^ 64) by (intros ->; cbn [dir] in Ep; injection Ep as <-; specialize (Hle eq_refl); lia));
    destruct (0 <? b); try discriminate E.
  1,3: injection E as <-; split; [reflexivity|]; intros ? ? Ei Eq; injection Eq as <- <-; specialize (Hc (Hi Ei)); lia.
  binv E i Ei. assert (Hi64 : i < 2 ^ 64).
  { destruct up; cbn [dir] in Ei; [injection Ei as <-; specialize (Hc eq_refl); lia|]. apply sub_inv in Ei. destruct Ei as [_ ->]. lia. }
  rewrite (dir_sim _ _ _ _ Ei) by auto. binv E nc En. apply low_sim in En. rewrite En. cbn [bind].
  assert (HI : index = true -> wadd sil c = sil + c) by (intros Ex; specialize (Hc (Hi Ex)); apply wadd_lt; lia).
  destruct (if up then ql <? nc else nc <? ql).
  { destruct index; [|binv E v Ev; apply add_sim in Ev]; injection E as <-; [rewrite (HI eq_refl)|rewrite Ev]; (split; [reflexivity|discriminate]). }
  destruct (nc =? ql).
  { destruct index; [|binv E v Ev; apply add_sim in Ev]; injection E as <-; [rewrite (HI eq_refl)|rewrite Ev]; (split; [reflexivity|discriminate]). }
  destruct (c + 1 =? 4); [|now apply IH]. apply binary_sim; auto. lia.
Qed.
Lemma search_sim index up siu sil q qu ql qmu v : (index = true -> up = true) -> siu < 2 ^ 64 -> sil + 2 < 2 ^ 64 ->
  (up = true -> sil <= siu) ->
  ef_search index up e siu sil q qu ql qmu = Ok v -> ef_search_rel index up e siu sil q qu ql qmu = Ok v.
Proof using All.
  intros Hi Hu Hs Hle E. unfold ef_search in E. binv E p Ep. binv E b Eb. pose proof (HR _ _ Eb) as Hp. binv E hit Eh.
  unfold ef_search_rel. rewrite (dir_sim _ _ _ _ Ep) by auto. rewrite Eb. cbn [bind].
  assert (Eh' : (if 0 <? b then
      let* lc := ef_low_rel e sil in
      if nye index up (N.lor qmu lc) q then
        let* o := ef_linear_rel 4 index up e siu sil qu ql qmu 1 lc in
        match o with
        | Ret v => Ok (Some v)
        | Cont cursor lc =>
            if index then Ok (Some (wadd sil cursor)) else Ok (Some (wadd (N.lor qmu lc) (ef_zero e)))
        end
      else Ok None
    else Ok None) = Ok hit).
  { destruct (0 <? b); auto. binv Eh lc El. apply low_sim in El. rewrite El. cbn [bind]. destruct (nye index up (N.lor qmu lc) q); auto.
    binv Eh o Eo. apply linear_sim in Eo; auto; [|lia]. destruct Eo as [Eo Ho]. rewrite Eo. cbn [bind]. destruct o as [v'|c' lc']; auto.
    destruct index.
    - rewrite wadd_lt by (apply (Ho c' lc'); auto). exact Eh.
    - binv Eh v' Ev. apply add_sim in Ev. rewrite Ev. exact Eh. }
  rewrite Eh'. cbn [bind]. destruct hit as [v'|]; auto. destruct index; auto. binv E i Ei. destruct up.
  - apply sub_inv in Ei. destruct Ei as [L ->]. rewrite wsub_ge by lia. now apply get_sim.
  - injection Ei as <-. rewrite wadd_lt by lia. now apply get_sim.
Qed.
Lemma pred_sim q v : q < 2 ^ 64 -> ef_predecessor_unchecked e q = Ok v -> ef_predecessor_unchecked_rel e q = Ok v.
Proof using All.
  intros Hq E. unfold ef_predecessor_unchecked, ef_predecessor_unchecked_rel in *. destruct (ef_max e <? q).
  - binv E i Ei. apply sub_inv in Ei. destruct Ei as [L ->]. rewrite wsub_ge by lia. now apply get_sim.
  - binv E n En. apply sub_inv in En. destruct En as [L ->]. rewrite wsub_ge by lia. binv E siu Es. pose proof (HU0 _ _ Es). rewrite Es. cbn [bind].
    binv E sil El. apply sub_inv in El. destruct El as [L2 ->]. rewrite (wsub_ge siu) by lia. binv E ru Er. apply shl_sim in Er. rewrite Er.
    apply search_sim; auto; lia.
Qed.
Lemma succ_sim q v : q < 2 ^ 64 -> ef_successor_unchecked e q = Ok v -> ef_successor_unchecked_rel e q = Ok v.
Proof using All.
  intros Hq E. unfold ef_successor_unchecked, ef_successor_unchecked_rel in *. destruct (q <? ef_zero e); [now apply get_sim|].
  binv E n En. apply sub_inv in En. destruct En as [L ->]. rewrite wsub_ge by lia. binv E siu Es. pose proof (HU0 _ _ Es).
  binv E s El. apply sub_inv in El. destruct El as [L2 ->]. binv E sil El. apply sub_inv in El. destruct El as [L3 ->].
  rewrite wadd_lt by lia. rewrite Es. cbn [bind]. rewrite (wsub_ge siu), (wsub_ge _ 2) by lia. binv E ru Er. apply shl_sim in Er. rewrite Er.
  apply search_sim; auto; try discriminate; lia.
Qed.
Lemma rank_sim q v : q < 2 ^ 64 -> ef_rank e q = Ok v -> ef_rank_rel e q = Ok v.
Proof using All.
  intros Hq E. unfold ef_rank, ef_rank_rel in *. destruct ((ef_max e <? q) || (ef_n e =? 0)); auto. destruct (q <? ef_zero e); auto.
  binv E n En. apply sub_inv in En. destruct En as [L ->]. rewrite wsub_ge by lia. binv E siu Es. pose proof (HU0 _ _ Es). rewrite Es. cbn [bind].
  binv E sil El. apply sub_inv in El. destruct El as [L2 ->]. rewrite (wsub_ge siu) by lia. binv E ru Er. apply shl_sim in Er. rewrite Er.
  apply search_sim; auto; lia.
Qed.
Lemma delta_sim i v : ef_delta e i = Ok v -> ef_delta_rel e i = Ok v.
Proof using All.
  intros E. unfold ef_delta, ef_delta_rel in *. destruct (N.leb_spec (ef_n e) i); auto. binv E ui Eu. pose proof (HU1 _ _ Eu). rewrite Eu. cbn [bind].
  binv E p Ep. apply sub_inv in Ep. destruct Ep as [L ->]. rewrite wsub_ge by lia. binv E b Eb. rewrite Eb. cbn [bind]. destruct (b =? 1).
  - binv E x Ex. pose proof Ex as Ex1. apply low_sim in Ex. rewrite Ex. cbn [bind]. binv E j Ej. apply sub_inv in Ej. destruct Ej as [Lj ->]. rewrite wsub_ge by lia.
    binv E y Ey. apply low_sim in Ey. rewrite Ey. cbn [bind]. binv E d Ed. injection E as <-. apply sub_inv in Ed. destruct Ed as [Ld ->].
    rewrite wsub_ge; auto. now apply (HV i).
  - binv E s Es. apply sub_inv in Es. destruct Es as [L1 ->]. binv E s Es. apply sub_inv in Es. destruct Es as [L2 ->]. rewrite (wsub_ge ui i), (wsub_ge _ 1) by lia.
    binv E qup Eqq. apply shl_sim in Eqq. rewrite Eqq. binv E x Ex. pose proof (HV _ _ Ex) as Hx. apply low_sim in Ex. rewrite Ex. cbn [bind].
    destruct (i =? 0); [binv E v' Ev; apply add_sim in Ev; rewrite Ev; exact E|].
    binv E j Ej. apply sub_inv in Ej. destruct Ej as [Lj ->]. rewrite (wsub_ge i 1) by lia. binv E lui El. pose proof (HU1 _ _ El). rewrite El. cbn [bind].
    binv E s Es. apply sub_inv in Es. destruct Es as [L3 ->]. binv E leu Es. apply sub_inv in Es. destruct Es as [L4 ->]. rewrite (wsub_ge lui), (wsub_ge _ 1) by lia.
    binv E hi Eh. apply shl_sim in Eh. rewrite Eh. binv E y Ey. apply low_sim in Ey. rewrite Ey. cbn [bind].
    binv E d Ed. injection E as <-. apply sub_inv in Ed. destruct Ed as [Ld ->]. rewrite wsub_ge; auto.
    rewrite <- Eqq. apply lor_lt; auto. unfold shl64. apply N.mod_lt. discriminate.
Qed.
End Sim.

(** ** The stored bits of a built vector. *)
(** The number whose binary digits are the low parts of all elements, the first element lowest. *)
Fixpoint low_stream (zero w : N) (l : list N) : N :=
  match l with
  | [] => 0
  | x :: r => (x - zero) mod 2 ^ w + 2 ^ w * low_stream zero w r
  end.
Lemma flip_tail bv p bv' : wf bv -> zero_tail bv -> p < blen bv -> bv_flip_bit_unchecked bv p = Ok bv' -> zero_tail bv'.
Proof.
  intros Hw Hz Hp E. pose proof (C110_writes bv p 0 Hw) as H. rewrite lenN_flat in H. destruct Hw as [El _].
  destruct (N.ltb_spec p (64 * lenN (bdata bv))) as [L|L]; [|dlia]. destruct H as (_ & bv1 & E1 & W1 & L1 & F1). rewrite E in E1. injection E1 as <-.
  rewrite !lenN_bits in L1. intros i Hi. rewrite L1 in Hi. destruct (N.lt_ge_cases i (64 * lenN (bdata bv'))) as [L2|L2]; [|now apply bit_at_over].
  rewrite <- nthN_flat by auto. rewrite F1, nthN_app, lenN_takeN, lenN_flat, nthN_cons, nthN_dropN.
  replace (N.min p (64 * lenN (bdata bv))) with p by lia. destruct (N.ltb_spec i p); [lia|]. destruct (N.eqb_spec (i - p) 0); [lia|].
  replace (p + 1 + (i - p - 1)) with i by lia.
  destruct (N.lt_ge_cases i (64 * lenN (bdata bv))) as [L3|L3]; [rewrite nthN_flat by auto; now apply Hz|]. apply nthN_overflow. rewrite lenN_flat. auto.
Qed.

Section Raw.
Variables (data : list N) (w : N) (e : ef).
Hypothesis Hs : nondecreasing data.
Hypothesis Hd : Forall (fun x => x < 2 ^ 64) data.
Hypothesis Hne : 0 < lenN data.
Hypothesis Hw : w < 64.
Hypothesis E : ef_from_slice w data = Ok e.
Local Notation n := (lenN data).
Local Notation B := (eU data w (n - 1)).
Local Notation m := (2 + n + B).

Lemma ef_raw : (exists up, wf up /\ zero_tail up /\ blen up = m /\ rs_from_bit_vec up = Ok (ef_upper e)) /\ ef_w e = w /\
  (if w =? 0 then lenN (bdata (ef_lower e)) = n /\ Forall (fun x => x = 0) (bdata (ef_lower e))
   else wf (ef_lower e) /\ zero_tail (ef_lower e) /\ bits (ef_lower e) = concat (map (fun x => lowbits x w) (map (eL data w) (range 0 n)))).
Proof using All.
  revert E. unfold ef_from_slice. destruct (N.eqb_spec n 0) as [|_]; [lia|]. rewrite assert_true by now apply nondecreasing_windows. cbn [bind].
  rewrite !(idx_ok 0) by lia. cbn [bind].
  pose proof (nondecreasing_nth data Hs 0 (n - 1) ltac:(lia) ltac:(lia)). rewrite sub_ok by auto. cbn [bind].
  change (nthN 0 data (n - 1) - nthN 0 data 0) with (eW data (n - 1)). rewrite assert_true by lia. cbn [bind]. rewrite N.shiftr_div_pow2.
  change (eW data (n - 1) / 2 ^ w) with B.
  destruct (bv_from_zeros_ok m) as [Hz1 Hz2]. assert (Hzl : blen (bv_from_zeros m) = m) by reflexivity.
  match goal with |- context [forM _ ?s _] => set (s0 := s) end.
  destruct (forM_enum_inv 0 (fun i s =>
    wf (fst s) /\ blen (fst s) = m /\ (forall p, p < m -> bit_at (bdata (fst s)) p = true <-> exists k, k < i /\ ePos data w k = p) /\
    (if w =? 0 then blen (snd s) = 0 /\ lenN (bdata (snd s)) = i /\ Forall (fun x => x = 0) (bdata (snd s))
     else wf (snd s) /\ zero_tail (snd s) /\ bits (snd s) = concat (map (fun x => lowbits x w) (map (eL data w) (range 0 i)))) /\ zero_tail (fst s))
    data s0 (ef_push w (nthN 0 data 0))) as ([up low] & El & H1 & H2 & H3 & H4 & H5).
  - unfold s0. cbn [fst snd]. split; auto. split; auto. split; [|split].
    + intros p Hp. rewrite <- (nthN_bits false (bv_from_zeros m) p) by (rewrite Hzl; lia). rewrite Hz2.
      rewrite nthN_replicate by auto. split; [discriminate|]. intros (k & Hk & _). lia.
    + destruct (w =? 0); [repeat split; auto; constructor|]. split; [apply bv_new_wf|]. split; [apply bv_new_zero_tail|]. reflexivity.
    + exact (proj1 (proj2 (gb_zeros m))).
  - intros i [up low] Hi (H1 & H2 & H3 & H4 & H5). cbn [fst snd] in *.
    destruct (ef_push_ok data w Hs Hd Hne Hw i up low Hi H1 H2 H3 H4) as (up' & low' & Ep & P1 & P2 & P3 & P4). exists (up', low'). split; [auto|]. cbn [fst snd].
    do 3 (split; [auto|]). split; [auto|]. unfold ef_push in Ep. binv Ep x Ex. apply sub_inv in Ex. destruct Ex as [_ ->]. binv Ep up1 Eu. binv Ep low1 El.
    injection Ep as <- <-. apply (flip_tail up (N.shiftr (nthN 0 data i - nthN 0 data 0) w + i + 1)); auto. rewrite H2, N.shiftr_div_pow2.
    change ((nthN 0 data i - nthN 0 data 0) / 2 ^ w) with (eU data w i). pose proof (eU_mono data w Hs Hd Hne Hw i (n - 1) ltac:(lia) ltac:(lia)). lia.
  - rewrite El. cbn [bind fst snd] in *. intros Er. binv Er u Eu. injection Er as <-. cbn [ef_upper ef_lower ef_w].
    split; [exists up; auto|]. split; [reflexivity|]. destruct (w =? 0); [split; apply H4|auto].
Qed.

Lemma stream_value l : value (concat (map (fun x => lowbits x w) (map (fun x => (x - nthN 0 data 0) mod 2 ^ w) l))) = low_stream (nthN 0 data 0) w l.
Proof using All.
  induction l as [|x l IH]; [reflexivity|]. cbn [map concat low_stream]. rewrite value_app, IH, value_lowbits, lenN_lowbits, N.mod_mod by now apply N.pow_nonzero. reflexivity.
Qed.
Lemma low_map : map (eL data w) (range 0 n) = map (fun x => (x - nthN 0 data 0) mod 2 ^ w) data.
Proof using All.
  apply list_ext with (d := 0); [now rewrite !lenN_map, lenN_range, N.sub_0_r|]. rewrite lenN_map, lenN_range, N.sub_0_r. intros i Hi.
  rewrite (nthN_map _ 0 0), (nthN_map (fun x => (x - nthN 0 data 0) mod 2 ^ w) 0 0), nthN_range by (rewrite ?lenN_range; lia).
  rewrite N.add_0_l. reflexivity.
Qed.
Lemma low_read p : (w = 0 -> p = 0) -> bv_get_bits_unchecked (ef_lower e) p w =
  if p + w <=? 64 * ((n * w + 63) / 64) then Ok ((low_stream (nthN 0 data 0) w data / 2 ^ p) mod 2 ^ w) else Panic.
Proof using All.
  intros Hp. destruct ef_raw as (_ & _ & Hl). destruct (N.eqb_spec w 0) as [E0|E0].
  - rewrite (Hp E0), E0. destruct Hl as [Ln LF]. destruct (bdata (ef_lower e)) as [|x r] eqn:Ed; [change (lenN (@nil N)) with 0 in Ln; lia|].
    inversion LF as [|? ? Hx _]. subst x. unfold bv_get_bits_unchecked, limbs_get_bits_unchecked. rewrite Ed.
    rewrite N.mul_0_r. change (2 ^ 0) with 1. rewrite N.mod_1_r. reflexivity.
  - destruct Hl as ([El Hwd] & Hz & Hb). unfold bv_get_bits_unchecked. rewrite read_ok by auto. unfold read_stored. rewrite lenN_flat.
    assert (Elen : blen (ef_lower e) = n * w).
    { rewrite <- lenN_bits, Hb, lenN_concat_lowbits, lenN_map, lenN_range. lia. }
    rewrite El, Elen. destruct (N.leb_spec w 64); [|lia]. cbn [andb].
    destruct (N.leb_spec (p + w) (64 * ((n * w + 63) / 64))) as [L|L]; [|now rewrite andb_false_r].
    destruct (N.ltb_spec p (64 * ((n * w + 63) / 64))); [|lia]. cbn [andb]. f_equal.
    rewrite <- stream_value, <- low_map, <- Hb. apply N.bits_inj. intros j. rewrite testbit_value.
    rewrite <- N.land_ones, N.land_spec, <- N.shiftr_div_pow2, N.shiftr_spec', testbit_value.
    destruct (N.lt_ge_cases j w) as [Lj|Lj].
    + rewrite N.ones_spec_low, andb_true_r by auto. rewrite nthN_sliceN by auto. rewrite nthN_flat by (rewrite El, Elen; lia). rewrite (N.add_comm j p).
      destruct (N.lt_ge_cases (p + j) (blen (ef_lower e))) as [Lp|Lp]; [now rewrite nthN_bits|]. rewrite Hz by auto. symmetry. apply nthN_overflow. now rewrite lenN_bits.
    + rewrite N.ones_spec_high, andb_false_r by auto. apply nthN_overflow. rewrite lenN_sliceN; [auto|]. rewrite lenN_flat, El, Elen. lia.
Qed.
(** The bit of the upper vector behind its end. *)
Lemma up_tail p : m <= p -> rs_get_unchecked (ef_upper e) p = if p / 64 <? (m + 63) / 64 then Ok 0 else Panic.
Proof using All.
  intros Hp. destruct ef_raw as ((up & W1 & Z1 & L1 & E1) & _). rewrite (proj1 (C110_rsvec up (ef_upper e) p 0 W1 E1)). pose proof (proj1 W1) as El.
  destruct (N.ltb_spec (p / 64) ((m + 63) / 64)) as [L|L].
  - assert (Hp2 : p < 64 * lenN (bdata up)) by (rewrite El, L1; dlia). rewrite (getN_ok false) by (rewrite lenN_flat; auto). rewrite nthN_flat by auto. rewrite Z1 by lia. reflexivity.
  - rewrite getN_none; [reflexivity|]. rewrite lenN_flat, El, L1. dlia.
Qed.
End Raw.

Section Fits.
Variables (data : list N) (w : N) (e : ef).
Hypothesis Hs : nondecreasing data.
Hypothesis Hd : Forall (fun x => x < 2 ^ 64) data.
Hypothesis Hne : 0 < lenN data.
Hypothesis Hw : w < 64.
Hypothesis E : ef_from_slice w data = Ok e.
Local Notation n := (lenN data).
Local Notation B := (eU data w (n - 1)).
Local Notation m := (2 + n + B).
Hypothesis Hm : m + 64 <= 2 ^ 64.
Hypothesis Hl : n * w <= 2 ^ 64.

Lemma fit_good : ef_good data w e.
Proof using All. destruct (ef_built data w e Hs Hd Hw E) as [(-> & _)|[_ G]]; [change (lenN (@nil N)) with 0 in Hne; lia|exact G]. Qed.
Lemma fit_sel0 j s : rs_select0 (ef_upper e) j = Ok s -> s + 64 <= 2 ^ 64.
Proof using All.
  destruct (up_bits data w e Hs Hd Hne Hw fit_good) as (bv & H1 & H2 & H3 & H4 & H5). rewrite (rs_select0_ok bv) by auto. intros Es. injection Es as <-.
  pose proof (select_spec_le false (bits bv) j) as Hx. rewrite lenN_bits, H3 in Hx. lia.
Qed.
Lemma fit_sel1 j s : rs_select1 (ef_upper e) j = Ok s -> s + 64 <= 2 ^ 64.
Proof using All.
  destruct (up_bits data w e Hs Hd Hne Hw fit_good) as (bv & H1 & H2 & H3 & H4 & H5). rewrite (rs_select1_ok bv) by auto. intros Es. injection Es as <-.
  pose proof (select_spec_le true (bits bv) j) as Hx. rewrite lenN_bits, H3 in Hx. lia.
Qed.
Lemma fit_read p b : rs_get_unchecked (ef_upper e) p = Ok b -> p < 2 ^ 64.
Proof using All.
  intros Eb. destruct (N.lt_ge_cases p m) as [L|L]; [lia|]. rewrite (up_tail data w e) in Eb by auto.
  destruct (N.ltb_spec (p / 64) ((m + 63) / 64)) as [L2|]; [|discriminate]. clear - L2 Hm. dlia.
Qed.
Lemma fit_low i v : ef_low e i = Ok v -> i * ef_w e < 2 ^ 64.
Proof using All.
  unfold ef_low. rewrite (eg_w _ _ _ fit_good). destruct (N.eq_dec w 0) as [->|H0]; [lia|]. rewrite (low_read data w e) by (auto; lia).
  destruct (N.leb_spec (i * w + w) (64 * ((n * w + 63) / 64))) as [L|]; [|discriminate]. intros _. assert ((n * w + 63) / 64 <= 2 ^ 58); [|lia].
  clear - Hl. set (x := n * w) in *. clearbody x. dlia.
Qed.
Lemma fit_val i v : ef_low e i = Ok v -> v < 2 ^ 64.
Proof using All.
  unfold ef_low. rewrite (eg_w _ _ _ fit_good). rewrite (low_read data w e) by (auto; lia).
  destruct (i * w + w <=? 64 * ((n * w + 63) / 64)); [|discriminate]. intros Ev. injection Ev as <-.
  assert (P : 2 ^ w <> 0) by now apply N.pow_nonzero. pose proof (N.mod_lt (low_stream (nthN 0 data 0) w data / 2 ^ (i * w)) _ P).
  pose proof (N.pow_lt_mono_r 2 w 64 ltac:(lia) Hw). lia.
Qed.
Lemma fit_n : ef_n e < 2 ^ 64.
Proof using All. rewrite (eg_n _ _ _ fit_good). lia. Qed.
End Fits.

Section Answers.
Variables (data : list N) (w : N) (e : ef).
Hypothesis Hs : nondecreasing data.
Hypothesis Hd : Forall (fun x => x < 2 ^ 64) data.
Hypothesis Hw : w < 64.
Hypothesis E : ef_from_slice w data = Ok e.
Hypothesis Hm : 2 + lenN data + (nthN 0 data (lenN data - 1) - nthN 0 data 0) / 2 ^ w + 64 <= 2 ^ 64.
Hypothesis Hl : lenN data * w <= 2 ^ 64.

Lemma fit_pred_sim : 0 < lenN data -> forall q v, q < 2 ^ 64 -> ef_predecessor_unchecked e q = Ok v -> ef_predecessor_unchecked_rel e q = Ok v.
Proof using All.
  intros Hn. pose proof (fit_sel0 data w e Hs Hd Hn Hw E Hm Hl) as F0. pose proof (fit_sel1 data w e Hs Hd Hn Hw E Hm Hl) as F1.
  pose proof (fit_read data w e Hs Hd Hn Hw E Hm Hl) as F2. pose proof (fit_low data w e Hs Hd Hn Hw E Hm Hl) as F3.
  pose proof (fit_val data w e Hs Hd Hn Hw E Hm Hl) as F4. pose proof (fit_n data w e Hs Hd Hn Hw E Hm Hl) as F5.
  now apply pred_sim.
Qed.
Lemma fit_succ_sim : 0 < lenN data -> forall q v, q < 2 ^ 64 -> ef_successor_unchecked e q = Ok v -> ef_successor_unchecked_rel e q = Ok v.
Proof using All.
  intros Hn. pose proof (fit_sel0 data w e Hs Hd Hn Hw E Hm Hl) as F0. pose proof (fit_sel1 data w e Hs Hd Hn Hw E Hm Hl) as F1.
  pose proof (fit_read data w e Hs Hd Hn Hw E Hm Hl) as F2. pose proof (fit_low data w e Hs Hd Hn Hw E Hm Hl) as F3.
  pose proof (fit_val data w e Hs Hd Hn Hw E Hm Hl) as F4. pose proof (fit_n data w e Hs Hd Hn Hw E Hm Hl) as F5.
  now apply succ_sim.
Qed.
Lemma fit_rank_sim : 0 < lenN data -> forall q v, q < 2 ^ 64 -> ef_rank e q = Ok v -> ef_rank_rel e q = Ok v.
Proof using All.
  intros Hn. pose proof (fit_sel0 data w e Hs Hd Hn Hw E Hm Hl) as F0. pose proof (fit_sel1 data w e Hs Hd Hn Hw E Hm Hl) as F1.
  pose proof (fit_read data w e Hs Hd Hn Hw E Hm Hl) as F2. pose proof (fit_low data w e Hs Hd Hn Hw E Hm Hl) as F3.
  pose proof (fit_val data w e Hs Hd Hn Hw E Hm Hl) as F4. pose proof (fit_n data w e Hs Hd Hn Hw E Hm Hl) as F5.
  now apply rank_sim.
Qed.
Lemma fit_delta_sim : 0 < lenN data -> forall i v, ef_delta e i = Ok v -> ef_delta_rel e i = Ok v.
Proof using All.
  intros Hn. pose proof (fit_sel0 data w e Hs Hd Hn Hw E Hm Hl) as F0. pose proof (fit_sel1 data w e Hs Hd Hn Hw E Hm Hl) as F1.
  pose proof (fit_read data w e Hs Hd Hn Hw E Hm Hl) as F2. pose proof (fit_low data w e Hs Hd Hn Hw E Hm Hl) as F3.
  pose proof (fit_val data w e Hs Hd Hn Hw E Hm Hl) as F4. pose proof (fit_n data w e Hs Hd Hn Hw E Hm Hl) as F5.
  now apply delta_sim.
Qed.
Lemma fit_get_sim : 0 < lenN data -> forall i v, ef_get_unchecked e i = Ok v -> ef_get_unchecked_rel e i = Ok v.
Proof using All.
  intros Hn. pose proof (fit_sel0 data w e Hs Hd Hn Hw E Hm Hl) as F0. pose proof (fit_sel1 data w e Hs Hd Hn Hw E Hm Hl) as F1.
  pose proof (fit_read data w e Hs Hd Hn Hw E Hm Hl) as F2. pose proof (fit_low data w e Hs Hd Hn Hw E Hm Hl) as F3.
  pose proof (fit_val data w e Hs Hd Hn Hw E Hm Hl) as F4. pose proof (fit_n data w e Hs Hd Hn Hw E Hm Hl) as F5.
  now apply get_sim.
Qed.
End Answers.

(** ** C130: [get_unchecked] for every index. *)
(** The element, or what is computed behind the end: the upper part is the distance from the index to
    the end of the upper vector, and the low part is read at the wrapped product of index and width. *)
Definition get_release (data : list N) (w i : N) : res N :=
  match getN data i with
  | Some x => Ok x
  | None =>
      let n := lenN data in
      let zero := nthN 0 data 0 in
      let top := (nthN 0 data (n - 1) - zero) / 2 ^ w in
      let p := (i * w) mod 2 ^ 64 in
      if p + w <=? 64 * ((n * w + 63) / 64)
      then Ok (((1 + n + top + 2 ^ 64 - i) * 2 ^ w + (low_stream zero w data / 2 ^ p) mod 2 ^ w + zero) mod 2 ^ 64)
      else Panic
  end.
Lemma shl_lor u w low : w < 64 -> low < 2 ^ w -> N.lor (shl64 u w) low = (u * 2 ^ w) mod 2 ^ 64 + low.
Proof.
  intros Hw Hl. unfold shl64. rewrite N.shiftl_mul_pow2. change U64 with (2 ^ 64).
  assert (EP : 2 ^ 64 = 2 ^ (64 - w) * 2 ^ w) by (rewrite <- N.pow_add_r; f_equal; lia).
  assert (P1 : 2 ^ w <> 0) by now apply N.pow_nonzero. assert (P2 : 2 ^ (64 - w) <> 0) by now apply N.pow_nonzero.
  rewrite EP, N.mul_mod_distr_r by auto. rewrite <- (N.shiftl_mul_pow2 _ w), lor_shift, N.shiftl_mul_pow2 by auto. reflexivity.
Qed.
Lemma wsub2 s i : s < 2 ^ 64 -> i < 2 ^ 64 -> wsub (wsub s i) 1 = (s + 2 ^ 64 - i - 1 + 2 ^ 64) mod 2 ^ 64.
Proof.
  intros H1 H2. unfold wrapping_sub. change U64 with (2 ^ 64). replace (s + 2 ^ 64 - i - 1 + 2 ^ 64) with ((s + 2 ^ 64 - i) + (2 ^ 64 - 1)) by lia.
  rewrite <- N.add_mod_idemp_l by lia. f_equal. pose proof (N.mod_lt (s + 2 ^ 64 - i) (2 ^ 64) ltac:(lia)). lia.
Qed.
Theorem C130_get_unchecked data w e i :
  nondecreasing data -> Forall (fun x => x < 2 ^ 64) data -> w < 64 -> ef_from_slice w data = Ok e -> data <> [] ->
  let n := lenN data in
  2 + n + (nthN 0 data (n - 1) - nthN 0 data 0) / 2 ^ w + 64 <= 2 ^ 64 -> n * w <= 2 ^ 64 -> i < 2 ^ 64 ->
  ef_get_unchecked_rel e i = get_release data w i.
Proof.
  intros Hs Hd Hw E Hne n Hm Hl Hi. assert (Hn : 0 < lenN data) by (destruct data; [easy|rewrite lenN_cons; lia]). clear Hne.
  pose proof (fit_good data w e Hs Hd Hn Hw E Hm Hl) as G. unfold get_release. destruct (N.lt_ge_cases i (lenN data)) as [L|L].
  - rewrite (getN_ok 0) by auto. apply (fit_get_sim data w e); auto. now apply (ef_get_unchecked_ok data w e).
  - rewrite getN_none by auto. cbv zeta. fold n. unfold ef_get_unchecked_rel. rewrite (sel1_over data w e) by auto. cbn [bind].
    rewrite (eg_zero _ _ _ G), (eg_w _ _ _ G). unfold wmul. change U64 with (2 ^ 64). rewrite (low_read data w e) by (auto; intros ->; rewrite N.mul_0_r; reflexivity).
    change ((nthN 0 data (n - 1) - nthN 0 data 0) / 2 ^ w) with (eU data w (n - 1)) in *. fold n.
    destruct (_ <=? _); cbn [bind]; [|reflexivity]. set (B := eU data w (n - 1)) in *. clearbody B. set (p := (i * w) mod 2 ^ 64).
    assert (P : 2 ^ w <> 0) by now apply N.pow_nonzero. pose proof (N.mod_lt (low_stream (nthN 0 data 0) w data / 2 ^ p) _ P) as Hlow.
    set (low := (low_stream (nthN 0 data 0) w data / 2 ^ p) mod 2 ^ w) in *. clearbody low.
    rewrite wsub2 by (clear - Hm Hi; lia). rewrite shl_lor by auto. f_equal. unfold wadd. change U64 with (2 ^ 64).
    replace (2 + n + B + 2 ^ 64 - i - 1 + 2 ^ 64) with (1 + n + B + 2 ^ 64 - i + 1 * 2 ^ 64) by (clear - Hi; lia). rewrite N.mod_add by lia.
    rewrite <- !N.add_assoc, N.add_mod_idemp_l, <- N.add_mod_idemp_l, N.mul_mod_idemp_l, N.add_mod_idemp_l by lia. reflexivity.
Qed.


(** ** C129: checked queries are right, and what the unchecked ones return when there is no answer. *)
Theorem C129_checked data w e q i :
  nondecreasing data -> Forall (fun x => x < 2 ^ 64) data -> w < 64 -> ef_from_slice w data = Ok e ->
  let n := lenN data in
  2 + n + (nthN 0 data (n - 1) - nthN 0 data 0) / 2 ^ w + 64 <= 2 ^ 64 -> n * w <= 2 ^ 64 -> q < 2 ^ 64 ->
  (exists o, ef_predecessor_rel e q = Ok o /\ is_predecessor data q o) /\
  (exists o, ef_successor_rel e q = Ok o /\ is_successor data q o) /\
  ef_rank_rel e q = Ok (lenN (filter (fun x => x <? q) data)) /\
  ef_get_rel e i = Ok (getN data i) /\
  ef_delta_rel e i = Ok (match getN data i with
                         | None => None
                         | Some x => if i =? 0 then Some x
                                     else match getN data (i - 1) with Some y => Some (x - y) | None => None end
                         end).
Proof.
  intros Hs Hd Hw E n Hm Hl Hq. subst n. destruct (ef_built data w e Hs Hd Hw E) as [(-> & En & Ez & Gu)|[Hn G]].
  - unfold ef_predecessor_rel, ef_successor_rel, ef_rank_rel, ef_get_rel, ef_delta_rel. rewrite En. change (0 =? 0) with true. rewrite !orb_true_r.
    destruct (N.leb_spec 0 i); [|lia]. rewrite getN_none by (cbn; lia).
    split; [exists None; split; [reflexivity|intros y []]|]. split; [exists None; split; [reflexivity|intros y []]|]. auto.
  - pose proof (fit_pred_sim data w e Hs Hd Hw E Hm Hl Hn) as S1. pose proof (fit_succ_sim data w e Hs Hd Hw E Hm Hl Hn) as S2. pose proof (fit_rank_sim data w e Hs Hd Hw E Hm Hl Hn) as S3. pose proof (fit_delta_sim data w e Hs Hd Hw E Hm Hl Hn) as S4. pose proof (fit_get_sim data w e Hs Hd Hw E Hm Hl Hn) as S5.
    split; [|split; [|split; [|split]]].
    + destruct (C22_predecessor data w e q Hs Hd Hw E Hq) as (o & Eo & Ho). exists o. split; [|auto]. unfold ef_predecessor, ef_predecessor_rel in *.
      destruct (_ || _); auto. binv Eo v Ev. apply S1 in Ev; auto. rewrite Ev. exact Eo.
    + destruct (C23_successor data w e q Hs Hd Hw E Hq) as (o & Eo & Ho). exists o. split; [|auto]. unfold ef_successor, ef_successor_rel in *.
      destruct (_ || _); auto. binv Eo v Ev. apply S2 in Ev; auto. rewrite Ev. exact Eo.
    + apply S3; auto. now apply (C24_rank data w).
    + pose proof (proj1 (C21_get data w e i Hs Hd Hw E)) as Eg. unfold ef_get, ef_get_rel in *. destruct (_ <=? _); auto. binv Eg v Ev. apply S5 in Ev. rewrite Ev. exact Eg.
    + apply S4. now apply (C25_delta data w).
Qed.

Theorem C129_predecessor_unchecked data w e q :
  nondecreasing data -> Forall (fun x => x < 2 ^ 64) data -> w < 64 -> ef_from_slice w data = Ok e ->
  let n := lenN data in
  let zero := nthN 0 data 0 in
  let last := nthN 0 data (n - 1) in
  let top := (last - zero) / 2 ^ w in
  let len := 2 + n + top in
  len + 64 <= 2 ^ 64 -> n * w <= 2 ^ 64 -> q < 2 ^ 64 ->
  (forall x, is_predecessor data q (Some x) -> ef_predecessor_unchecked_rel e q = Ok x) /\
  (is_predecessor data q None -> ef_predecessor_unchecked_rel e q =
     let b := (q + 2 ^ 64 - zero) / 2 ^ w in
     if n =? 0 then Panic
     else if b =? top then Ok last
     else if b =? top + 1 then if len mod 64 =? 0 then Panic else Ok last
     else if (len + 1) mod 64 <=? 1 then Panic
     else get_release data w ((len + 2 ^ 64 - 1 - b) mod 2 ^ 64)).
Proof.
  intros Hs Hd Hw E n zero last top len Hm Hl Hq. subst n zero last top len.
  destruct (ef_built data w e Hs Hd Hw E) as [(-> & En & Ez & Gu)|[Hn G]].
  - split; [intros x ([] & _)|]. intros _. change (lenN (@nil N) =? 0) with true. cbv iota. cbv zeta.
    destruct (ef_empty w) as (u & E' & Gu'). rewrite E' in E. injection E as <-. unfold ef_predecessor_unchecked_rel. cbn [ef_max ef_zero ef_n ef_w ef_upper ef_lower] in *.
    destruct (0 <? q).
    + unfold ef_get_unchecked_rel. cbn [ef_max ef_zero ef_n ef_w ef_upper ef_lower]. rewrite (rs_select1_ok bv_new) by (auto using bv_new_wf).
      rewrite select_spec_over by (change (count true (bits bv_new)) with 0; lia). cbn [bind].
      unfold bv_get_bits_unchecked, limbs_get_bits_unchecked. rewrite assert_true by lia. cbn [bind].
      rewrite idx_panic by (change (lenN (bdata bv_new)) with 0; lia). reflexivity.
    + rewrite (rs_select0_ok bv_new) by (auto using bv_new_wf). rewrite select_spec_over by (change (count false (bits bv_new)) with 0; lia). cbn [bind].
      unfold ef_search_rel. cbn [ef_upper]. unfold rs_get_unchecked. rewrite (good_data _ _ Gu'). rewrite idx_panic by (change (lenN (bdata bv_new)) with 0; lia). reflexivity.
  - pose proof (fit_pred_sim data w e Hs Hd Hw E Hm Hl Hn) as S1.
    destruct (C97_predecessor_unchecked data w e q Hs Hd Hw E Hq) as (P1 & _). split; [intros x Hx; apply S1; auto|].
    intros Hx. cbv zeta. destruct (N.eqb_spec (lenN data) 0) as [|_]; [lia|].
    assert (Hz : q < nthN 0 data 0) by (apply Hx, In_nthN; lia). clear Hx P1.
    pose proof (nondecreasing_nth data Hs 0 (lenN data - 1) ltac:(lia) ltac:(lia)) as H0.
    pose proof (data_lt data w Hs Hd Hn Hw (lenN data - 1) ltac:(lia)) as Hlast. change U64 with (2 ^ 64) in Hlast.
    set (n := lenN data) in *. set (zero := nthN 0 data 0) in *. set (last := nthN 0 data (n - 1)) in *.
    assert (EB : (last - zero) / 2 ^ w = eU data w (n - 1)) by reflexivity. rewrite EB in Hm |- *. set (B := eU data w (n - 1)) in *.
    assert (P : 2 ^ w <> 0) by now apply N.pow_nonzero.
    set (q' := q + 2 ^ 64 - zero). assert (Hq' : wsub q zero = q') by (rewrite wsub_lt by lia; subst q'; lia).
    assert (Hq64 : q' < 2 ^ 64) by (subst q'; lia). assert (HW : eW data (n - 1) < q') by (unfold eW; fold zero last; subst q'; lia).
    set (b := q' / 2 ^ w). assert (Hb : B <= b) by (subst b; unfold B, eU; apply N.div_le_mono; lia).
    pose proof (N.mul_div_le q' (2 ^ w) P) as Hbw. fold b in Hbw.
    unfold ef_predecessor_unchecked_rel. rewrite (eg_max _ _ _ G), (eg_zero _ _ _ G), (eg_w _ _ _ G). fold n zero last.
    destruct (N.ltb_spec last q); [lia|]. rewrite Hq', N.shiftr_div_pow2, land_lowmask by auto. fold b.
    assert (Hsh : shl64 b w = b * 2 ^ w) by (unfold shl64; rewrite N.shiftl_mul_pow2; apply N.mod_small; change U64 with (2 ^ 64); lia). rewrite Hsh.
    assert (HC : eC data w (B + 1) = n).
    { apply N.le_antisymm; [now apply eC_le|]. destruct (N.le_gt_cases n (eC data w (B + 1))) as [|Hx]; auto.
      assert (n - 1 < eC data w (B + 1)); [|lia]. apply (eC_lt data w Hs Hd Hn Hw); fold B; lia. }
    destruct (N.eqb_spec b B) as [Eb|Nb]; [|destruct (N.eqb_spec b (B + 1)) as [Eb|Nb2]].
    + rewrite (sel0 data w e) by (auto; fold n B; lia). cbn [bind]. pose proof (eC_le data w Hs Hd Hn Hw b) as Hc. fold n in Hc.
      rewrite wsub_ge by lia. replace (b + eC data w b - b) with (eC data w b) by lia.
      assert (HQ : reach data w q') by (unfold reach; fold n b B; lia).
      pose proof (ef_search_up data w e Hs Hd Hn Hw G q' HQ false) as Hsr. fold b in Hsr.
      assert (Hcnt : cnt (fun k => eW data k <=? q') (lenN data) = lenN data).
      { rewrite (cnt_ext _ (fun _ => true)), cnt_true; auto. intros k Hk. pose proof (eW_mono data w Hs Hd Hn Hw k (n - 1)  ltac:(fold n in Hk; lia) ltac:(lia)). lia. }
      unfold up_result in Hsr. rewrite Hcnt in Hsr. specialize (Hsr (fun _ => Hn)). fold n last in Hsr.
      apply search_sim; [..|exact Hsr]; try discriminate.
      * exact (fit_sel0 data w e Hs Hd Hn Hw E Hm Hl).
      * exact (fit_sel1 data w e Hs Hd Hn Hw E Hm Hl).
      * exact (fit_read data w e Hs Hd Hn Hw E Hm Hl).
      * exact (fit_low data w e Hs Hd Hn Hw E Hm Hl).
      * exact (fit_val data w e Hs Hd Hn Hw E Hm Hl).
      * exact (fit_n data w e Hs Hd Hn Hw E Hm Hl).
      * lia.
      * lia.
      * lia.
    + rewrite (sel0 data w e) by (auto; fold n B; lia). cbn [bind]. rewrite Eb, HC. rewrite wsub_ge by lia. replace (B + 1 + n - (B + 1)) with n by lia.
      unfold ef_search_rel. cbn [dir_rel]. rewrite wadd_lt by lia. replace (B + 1 + n + 1) with (2 + n + B) by lia.
      rewrite (up_tail data w e) by (auto; fold n B; lia). fold n B. set (m := 2 + n + B) in *.
      destruct (N.ltb_spec (m / 64) ((m + 63) / 64)) as [L|L], (N.eqb_spec (m mod 64) 0) as [Z|Z]; try (exfalso; clear - L Z; clearbody m; dlia); cbn [bind]; [|reflexivity].
      change (0 <? 0) with false. cbv iota. cbn [bind]. rewrite wsub_ge by lia.
      apply (fit_get_sim data w e Hs Hd Hw E Hm Hl Hn). apply (ef_get_unchecked_ok data w e Hs Hd Hn Hw G). fold n. lia.
    + rewrite (sel0_over data w e) by (auto; fold n B; lia). cbn [bind]. fold n B. set (m := 2 + n + B) in *.
      unfold ef_search_rel. cbn [dir_rel]. rewrite wadd_lt by lia. rewrite (up_tail data w e) by (auto; fold n B; lia). fold n B m.
      assert (Ei : wsub (wsub m b) 1 = (m + 2 ^ 64 - 1 - b) mod 2 ^ 64).
      { assert (b < 2 ^ 64) by (subst b; pose proof (N.div_le_upper_bound q' (2 ^ w) q' P); nia).
        rewrite wsub2 by lia. replace (m + 2 ^ 64 - b - 1 + 2 ^ 64) with (m + 2 ^ 64 - 1 - b + 1 * 2 ^ 64) by lia. now rewrite N.mod_add by lia. }
      destruct (N.ltb_spec ((m + 1) / 64) ((m + 63) / 64)) as [L|L], (N.leb_spec ((m + 1) mod 64) 1) as [Z|Z]; try (exfalso; clear - L Z; clearbody m; dlia); cbn [bind]; [|reflexivity].
      change (0 <? 0) with false. cbv iota. cbn [bind]. rewrite Ei. apply C130_get_unchecked; auto.
      * destruct data; [|easy]. subst n; change (lenN (@nil N)) with 0 in Hn; lia.
      * apply N.mod_lt. lia.
Qed.

Theorem C129_successor_unchecked data w e q :
  nondecreasing data -> Forall (fun x => x < 2 ^ 64) data -> w < 64 -> ef_from_slice w data = Ok e ->
  let n := lenN data in
  let zero := nthN 0 data 0 in
  let top := (nthN 0 data (n - 1) - zero) / 2 ^ w in
  2 + n + top + 64 <= 2 ^ 64 -> n * w <= 2 ^ 64 -> q < 2 ^ 64 ->
  (forall x, is_successor data q (Some x) -> ef_successor_unchecked_rel e q = Ok x) /\
  (is_successor data q None -> ef_successor_unchecked_rel e q =
     let b := (q - zero) / 2 ^ w in
     if (n =? 0) || (b =? 2 ^ 64 - 1) then Panic
     else get_release data w (if b <=? top then n else (n + 1 + top + 2 ^ 64 - b) mod 2 ^ 64)).
Proof.
  intros Hs Hd Hw E n zero top Hm Hl Hq. subst n zero top.
  destruct (ef_built data w e Hs Hd Hw E) as [(-> & En & Ez & Gu)|[Hn G]].
  - split; [intros x ([] & _)|]. intros _. change (lenN (@nil N) =? 0) with true. cbv iota. cbv zeta. cbn [orb].
    unfold ef_successor_unchecked_rel. rewrite Ez. destruct (N.ltb_spec q 0); [lia|].
    rewrite (rs_select0_ok bv_new) by (auto using bv_new_wf). rewrite select_spec_over by (change (count false (bits bv_new)) with 0; lia). cbn [bind].
    unfold ef_search_rel, rs_get_unchecked. rewrite (good_data _ _ Gu). rewrite idx_panic by (change (lenN (bdata bv_new)) with 0; lia). reflexivity.
  - pose proof (fit_succ_sim data w e Hs Hd Hw E Hm Hl Hn) as S1.
    destruct (C97_successor_unchecked data w e q Hs Hd Hw E Hq) as (P1 & _). split; [intros x Hx; apply S1; auto|].
    intros Hx. cbv zeta. destruct (N.eqb_spec (lenN data) 0) as [|_]; [lia|]. cbn [orb].
    assert (Hz : nthN 0 data (lenN data - 1) < q) by (apply Hx, In_nthN; lia). clear Hx P1.
    pose proof (nondecreasing_nth data Hs 0 (lenN data - 1) ltac:(lia) ltac:(lia)) as H0.
    assert (Hdn : data <> []) by (destruct data; [change (lenN (@nil N)) with 0 in Hn; lia|easy]).
    assert (HG : forall i, i < 2 ^ 64 -> ef_get_unchecked_rel e i = get_release data w i) by (intros i Hi; now apply C130_get_unchecked).
    pose proof (fit_low data w e Hs Hd Hn Hw E Hm Hl) as F3.
    set (n := lenN data) in *. set (zero := nthN 0 data 0) in *. set (last := nthN 0 data (n - 1)) in *.
    assert (EB : (last - zero) / 2 ^ w = eU data w (n - 1)) by reflexivity. rewrite EB in Hm |- *. set (B := eU data w (n - 1)) in *.
    assert (P : 2 ^ w <> 0) by now apply N.pow_nonzero.
    set (b := (q - zero) / 2 ^ w). assert (Hb : B <= b) by (subst b; rewrite <- EB; apply N.div_le_mono; lia).
    pose proof (N.mul_div_le (q - zero) (2 ^ w) P) as Hbw. fold b in Hbw.
    assert (Hb64 : b < 2 ^ 64) by (clear - Hbw P Hq; nia).
    unfold ef_successor_unchecked_rel. rewrite (eg_zero _ _ _ G), (eg_w _ _ _ G). fold zero.
    destruct (N.ltb_spec q zero); [lia|]. rewrite wsub_ge by lia. rewrite N.shiftr_div_pow2, land_lowmask by auto. fold b.
    destruct (up_bits data w e Hs Hd Hn Hw G) as (bv & H1 & H2 & H3 & H4 & H5). fold n B in H3.
    destruct (N.eqb_spec b (2 ^ 64 - 1)) as [Eb|Nb]; [|destruct (N.leb_spec b B) as [Lb|Lb]].
    + rewrite wadd_ge by lia. replace (b + 1 - 2 ^ 64) with 0 by lia. rewrite (sel0 data w e) by (auto; fold n B; lia). cbn [bind].
      assert (HC0 : eC data w 0 = 0).
      { unfold eC. rewrite (cnt_ext _ (fun _ => false)), cnt_false; auto. intros k _. lia. }
      rewrite HC0. unfold ef_search_rel. cbn [dir_rel]. rewrite (wsub_lt (0 + 0) 1) by lia.
      rewrite (up_tail data w e) by (auto; fold n B; lia). fold n B. set (m := 2 + n + B) in *.
      destruct (N.ltb_spec ((2 ^ 64 - (1 - (0 + 0))) / 64) ((m + 63) / 64)) as [L|L]; [|reflexivity]. exfalso. clear - L Hm. clearbody m. dlia.
    + assert (Eb : b = B) by lia. rewrite wadd_lt by lia. rewrite Eb, (sel0 data w e) by (auto; fold n B; lia). cbn [bind].
      assert (HC : eC data w (B + 1) = n).
      { apply N.le_antisymm; [now apply eC_le|]. destruct (N.le_gt_cases n (eC data w (B + 1))) as [|Hx]; auto.
        assert (n - 1 < eC data w (B + 1)); [|lia]. apply (eC_lt data w Hs Hd Hn Hw); fold B; lia. }
      rewrite HC. rewrite (wsub_ge (B + 1 + n) B), (wsub_ge _ 2) by lia. replace (B + 1 + n - B - 2) with (n - 1) by lia.
      unfold ef_search_rel. cbn [dir_rel]. rewrite wsub_ge by lia. rewrite (rs_get_unchecked_ok bv) by (auto; lia). cbn [bind].
      assert (Hbit : bit_at (bdata bv) (B + 1 + n - 1) = true).
      { apply H4; [fold n B; lia|]. exists (n - 1). split; [lia|]. unfold ePos. fold n B. lia. }
      rewrite Hbit. cbn [bitN]. change (0 <? 1) with true. cbv iota.
      rewrite (low_sim e F3 (n - 1) (eL data w (n - 1))) by (apply (eg_low _ _ _ G); fold n; lia). cbn [bind].
      assert (Ew : nye false false (N.lor (shl64 B w) (eL data w (n - 1))) (q - zero) = false).
      { destruct (uL_lt data w e Hs Hd Hn Hw G (n - 1) ltac:(fold n; lia)) as (Hu & _ & Es). fold B in Hu, Es.
        unfold shl64. rewrite N.shiftl_mul_pow2, N.mod_small by exact Hu. rewrite <- N.shiftl_mul_pow2, lor_shift by (now apply (eL_lt data w)).
        rewrite <- Es. unfold nye, eW. fold zero last. lia. }
      rewrite Ew. cbn [bind]. rewrite wadd_lt by lia. replace (n - 1 + 1) with n by lia. apply HG. lia.
    + rewrite wadd_lt by lia. rewrite (sel0_over data w e) by (auto; fold n B; lia). cbn [bind]. fold n B. set (m := 2 + n + B) in *.
      unfold ef_search_rel. cbn [dir_rel]. rewrite (wsub_ge m 1) by lia. rewrite (rs_get_unchecked_ok bv) by (auto; lia). cbn [bind].
      assert (Hbit : bit_at (bdata bv) (m - 1) = false).
      { apply not_true_iff_false. intros Hbit. apply H4 in Hbit; [|fold n B m; lia]. destruct Hbit as (k & Hk & Ek). unfold ePos in Ek. fold n in Hk.
        pose proof (eU_mono data w Hs Hd Hn Hw k (n - 1) ltac:(lia) ltac:(fold n; lia)). fold B in H6. lia. }
      rewrite Hbit. cbn [bitN]. change (0 <? 0) with false. cbv iota. cbn [bind].
      assert (Ei : wadd (wsub (wsub m b) 2) 1 = (n + 1 + B + 2 ^ 64 - b) mod 2 ^ 64).
      { destruct (N.le_gt_cases b m) as [L1|L1].
        - rewrite (wsub_ge m b) by lia. destruct (N.le_gt_cases 2 (m - b)) as [L2|L2].
          + rewrite wsub_ge, wadd_lt by lia. replace (n + 1 + B + 2 ^ 64 - b) with (m - b - 2 + 1 + 1 * 2 ^ 64) by lia. rewrite N.mod_add by lia. rewrite N.mod_small; lia.
          + rewrite wsub_lt by lia. destruct (N.eq_dec (m - b) 1) as [E1|E1].
            * rewrite wadd_ge by lia. replace (n + 1 + B + 2 ^ 64 - b) with (1 * 2 ^ 64) by lia. rewrite N.mod_mul by lia. lia.
            * rewrite wadd_lt by lia. rewrite N.mod_small; lia.
        - rewrite (wsub_lt m b) by lia. rewrite wsub_ge, wadd_lt by lia. rewrite N.mod_small; lia. }
      rewrite Ei. apply HG. apply N.mod_lt. lia.
Qed.

(** Without low bits the upper part is made up from the query itself, so that the answer is the query. *)
Definition ex_densev : ef := match ef_from_slice 0 ex_dense with Ok e => e | _ => ef_dummy end.
Definition ex_wide : list N := [2 ^ 63; 2 ^ 64 - 1].
Definition ex_widev : ef := match ef_from_slice 62 ex_wide with Ok e => e | _ => ef_dummy end.
Example C129_ex :
  ef_predecessor_rel ex_efv 29 = Ok (Some 9) /\ ef_successor_rel ex_efv 32 = Ok (Some 90) /\ ef_rank_rel ex_efv 31 = Ok 5 /\ ef_delta_rel ex_efv 6 = Ok (Some 59) /\
  ef_predecessor_unchecked_rel ex_efv 6 = Panic /\
  ef_from_slice 0 ex_dense = Ok ex_densev /\ ef_predecessor_unchecked ex_densev 4 = Panic /\ ef_predecessor_unchecked_rel ex_densev 4 = Ok 4 /\
  ef_successor_unchecked ex_densev 15 = Panic /\ ef_successor_unchecked_rel ex_densev 15 = Ok 5 /\ ef_successor_unchecked_rel ex_densev 100 = Ok 100 /\
  ef_width ex_wide = 62 /\ ef_from_slice 62 ex_wide = Ok ex_widev /\ ef_predecessor_unchecked_rel ex_widev 0 = Ok (2 ^ 64 - 1).
Proof. vm_compute. repeat split. Qed.
(** Index 2^62 of a vector with width 4 reads the low bits of the first element again. *)
Example C130_ex :
  ef_get_unchecked_rel ex_efv (2 ^ 62 + 2) = get_release ex_ef 4 (2 ^ 62 + 2) /\
  get_release ex_ef 4 (2 ^ 62 + 2) = Ok (((1 + 7 + 5 - 2) * 16 + (9 - 7) + 7)) /\
  get_release ex_ef 4 (2 ^ 62 + 16) = Panic /\ ef_get_unchecked ex_efv (2 ^ 62 + 2) = Panic.
Proof. vm_compute. repeat split. Qed.
