(** * C121, C122: how many loop iterations the constructors take. *)
From Verif Require Import Base Spec BaseFacts BitVecModel BitVecProofs RsVecModel IterFacts WaveletModel WaveletProofs WaveletBuild WaveletCount RmqModel CostWaveletModel CostBuildModel EFProofs PropsWavelet.

(** [mq] is [m] with a budget, and takes [c] steps. *)
Definition takes {A} (m : res A) (mq : N -> res (A * N)) (c : N) : Prop :=
  forall x, m = Ok x -> forall q, mq q = if c <=? q then Ok (x, q - c) else Diverge.

Lemma takes_free {A} (m : res A) : takes m (free m) 0.
Proof. intros x E q. unfold free. rewrite E. cbn [bind]. destruct (N.leb_spec 0 q); [now rewrite N.sub_0_r|lia]. Qed.
Lemma takes_ok {A} (x : A) : takes (Ok x) (fun q => Ok (x, q)) 0.
Proof. apply (takes_free (Ok x)). Qed.
Lemma takes_bind {A B} (m : res A) mq c (f : A -> res B) (fq : A -> N -> res (B * N)) d :
  takes m mq c -> (forall x, m = Ok x -> takes (f x) (fq x) d) ->
  takes (let* x := m in f x) (fun q => let* '(x, q) := mq q in fq x q) (c + d).
Proof.
  intros H1 H2 y E q. destruct m as [x| |]; try discriminate. cbn [bind] in E. rewrite (H1 x eq_refl).
  destruct (N.leb_spec c q); cbn [bind].
  - rewrite (H2 x eq_refl y E). destruct (N.leb_spec d (q - c)), (N.leb_spec (c + d) q); try lia; [|reflexivity]. f_equal. f_equal. lia.
  - destruct (N.leb_spec (c + d) q); [lia|reflexivity].
Qed.
Lemma takes_pure {A B} (m : res A) (f : A -> res B) (fq : A -> N -> res (B * N)) d :
  (forall x, m = Ok x -> takes (f x) (fq x) d) ->
  takes (let* x := m in f x) (fun q => let* x := m in fq x q) d.
Proof. intros H y E q. destruct m as [x| |]; try discriminate. cbn [bind] in *. now apply H. Qed.
Lemma takes_pay {A} (m : res A) mq c n : takes m mq c -> takes m (fun q => let* q := pay n q in mq q) (n + c).
Proof.
  intros H x E q. unfold pay. destruct (N.leb_spec n q); cbn [bind].
  - rewrite (H x E). destruct (N.leb_spec c (q - n)), (N.leb_spec (n + c) q); try lia; [|reflexivity]. f_equal. f_equal. lia.
  - destruct (N.leb_spec (n + c) q); [lia|reflexivity].
Qed.
Lemma takes_ext {A} (m m' : res A) mq mq' c c' : m = m' -> (forall q, mq q = mq' q) -> c = c' -> takes m mq c -> takes m' mq' c'.
Proof. intros -> H -> T x E q. rewrite <- H. now apply T. Qed.

Definition sum_cost {A} (c : A -> N) (l : list A) : N := fold_right (fun x a => 1 + c x + a) 0 l.
Lemma takes_forM {A S} (P : S -> Prop) (f : S -> A -> res S) fq (c : A -> N) : forall l s,
  (forall s x, P s -> In x l -> takes (f s x) (fq s x) (c x) /\ forall s', f s x = Ok s' -> P s') -> P s ->
  takes (forM l s f) (forM_q l s fq) (sum_cost c l).
Proof.
  induction l as [|x l IH]; intros s H Hs; cbn [forM forM_q sum_cost fold_right].
  - apply takes_ok.
  - rewrite <- N.add_assoc.
    apply (takes_pay _ (fun q => let* '(s, q) := fq s x q in forM_q l s fq q)).
    destruct (H s x Hs (or_introl eq_refl)) as [H1 H2].
    apply takes_bind; [exact H1|]. intros s' E. apply IH; [|now apply H2]. intros s2 y Hs2 Hy. apply H; [auto|now right].
Qed.
Lemma sum_cost_const {A} c (l : list A) : sum_cost (fun _ => c) l = (1 + c) * lenN l.
Proof. induction l as [|x l IH]; [cbn; lia|]. cbn [sum_cost fold_right]. rewrite lenN_cons'. unfold sum_cost in IH. rewrite IH. lia. Qed.
Lemma sum_cost_app {A} c (l m : list A) : sum_cost c (l ++ m) = sum_cost c l + sum_cost c m.
Proof. unfold sum_cost. induction l as [|x l IH]; [reflexivity|]. cbn [app fold_right]. rewrite IH. lia. Qed.
Lemma sum_cost_rev {A} c (l : list A) : sum_cost c (rev l) = sum_cost c l.
Proof. induction l as [|x l IH]; [reflexivity|]. cbn [rev]. rewrite sum_cost_app, IH. unfold sum_cost. cbn [fold_right]. lia. Qed.
(** A loop without inner loops. *)
Lemma takes_forM_free {A S} (f : S -> A -> res S) l s : takes (forM l s f) (forM_q l s (fun s x => free (f s x))) (lenN l).
Proof.
  replace (lenN l) with (sum_cost (fun _ : A => 0) l) by (rewrite sum_cost_const; lia).
  apply (takes_forM (fun _ => True)); auto. intros. split; [apply takes_free|auto].
Qed.
Lemma forM_keeps {A S} (P : S -> Prop) (f : S -> A -> res S) : forall l s s',
  (forall s x s', P s -> f s x = Ok s' -> P s') -> P s -> forM l s f = Ok s' -> P s'.
Proof.
  induction l as [|x l IH]; intros s s' H Hs E; cbn [forM] in E; [congruence|].
  destruct (f s x) as [s1| |] eqn:E1; try discriminate. cbn [bind] in E. apply (IH s1); eauto.
Qed.
Lemma forM_range_keeps {S} (P : N -> S -> Prop) (f : S -> N -> res S) a b s s' : a <= b -> P a s ->
  (forall i s s', P i s -> f s i = Ok s' -> P (i + 1) s') -> forM (range a b) s f = Ok s' -> P b s'.
Proof.
  intros Hab Ha Hf. remember (N.to_nat (b - a)) as m eqn:Em. revert a s Hab Em Ha. induction m as [|m IH]; intros a s Hab Em Ha E.
  - rewrite range_nil in E by lia. injection E as <-. now replace b with a by lia.
  - rewrite range_cons in E by lia. cbn [forM] in E. apply bind_inv in E as (s1 & E1 & E). apply (IH (a + 1) s1); [lia|lia|eauto|auto].
Qed.
Lemma takes_mapM {A B} (f : A -> res B) fq c : forall l, (forall x, In x l -> takes (f x) (fq x) c) ->
  takes (mapM f l) (mapM_q fq l) ((1 + c) * lenN l).
Proof.
  induction l as [|x l IH]; intros H; cbn [mapM mapM_q].
  - change (lenN []) with 0. rewrite N.mul_0_r. apply takes_ok.
  - rewrite lenN_cons'.
    apply (takes_ext (let* y := f x in let* ys := mapM f l in Ok (y :: ys)) _
      (fun q => let* q := pay 1 q in let* '(y, q) := fq x q in let* '(ys, q) := mapM_q fq l q in Ok (y :: ys, q)) _ (1 + (c + ((1 + c) * lenN l + 0)))); [reflexivity|reflexivity|lia|].
    apply (takes_pay _ (fun q => let* '(y, q) := fq x q in let* '(ys, q) := mapM_q fq l q in Ok (y :: ys, q))).
    apply (takes_bind _ _ _ _ (fun y q => let* '(ys, q) := mapM_q fq l q in Ok (y :: ys, q))); [apply H; now left|]. intros y _.
    apply (takes_bind _ _ _ _ (fun ys q => Ok (y :: ys, q))); [apply IH; intros; apply H; now right|]. intros ys _. apply takes_ok.
Qed.

Lemma takes_seq {A B} c d e (m : res A) mq (f : A -> res B) (fq : A * N -> res (B * N)) :
  takes m mq c -> (forall x, m = Ok x -> takes (f x) (fun q => fq (x, q)) d) -> e = c + d ->
  takes (bind m f) (fun q => bind (mq q) fq) e.
Proof.
  intros H1 H2 ->. apply (takes_ext (bind m f) _ (fun q => let* '(x, q) := mq q in fq (x, q)) _ (c + d)); auto.
  - intros q. destruct (mq q) as [[x q']| |]; reflexivity.
  - now apply takes_bind.
Qed.
Lemma takes_loop {A S} (f : S -> A -> res S) l s c : lenN l = c -> takes (forM l s f) (forM_q l s (fun s x => free (f s x))) c.
Proof. intros <-. apply takes_forM_free. Qed.

Lemma rs_takes bv : takes (rs_from_bit_vec bv) (rs_from_bit_vec_q bv) (lenN (bdata bv)).
Proof.
  unfold rs_from_bit_vec, rs_from_bit_vec_q.
  apply (takes_seq (lenN (bdata bv)) 0); [|intros st _; apply takes_free|lia].
  apply takes_loop. apply range_lenN.
Qed.

(** ** The wavelet matrix. *)
Lemma set_idx_len {A} (l l' : list A) i v : set_idx l i v = Ok l' -> lenN l' = lenN l.
Proof. unfold set_idx. destruct (_ <? _); [|discriminate]. intros H. injection H as <-. apply lenN_set_nth. Qed.
Lemma set_words bv p v bv' : bv_set_unchecked bv p v = Ok bv' -> lenN (bdata bv') = lenN (bdata bv).
Proof.
  unfold bv_set_unchecked. intros H. apply bind_inv in H as (d & E & H). injection H as <-. cbn [bdata].
  unfold upd_limb in E. apply bind_inv in E as (w & _ & E). now apply set_idx_len in E.
Qed.
Lemma zeros_words n : lenN (bdata (bv_from_zeros n)) = (n + 63) / 64.
Proof. destruct (gb_zeros n) as ((Hl & _) & _). rewrite Hl. reflexivity. Qed.

Lemma takes_loop2 {A S T} (f : S * T -> A -> res (S * T)) g l s c : lenN l = c ->
  (forall a b x q, g (a, b) x q = free (f (a, b) x) q) -> takes (forM l s f) (forM_q l s g) c.
Proof.
  intros <- H. replace (lenN l) with (sum_cost (fun _ : A => 0) l) by (rewrite sum_cost_const; lia).
  apply (takes_forM (fun _ => True)); auto. intros [a b] x _ _. split; [|auto].
  apply (takes_ext (f (a, b) x) _ (free (f (a, b) x)) _ 0); auto using takes_free.
Qed.
Lemma ps_fill_takes k look perm level data : takes (ps_fill k look perm level data) (ps_fill_q k look perm level data) (lenN perm).
Proof. apply takes_loop2; [apply range_lenN|reflexivity]. Qed.
Lemma ps_scatter_takes perm next data zeros : takes (ps_scatter perm next data zeros) (ps_scatter_q perm next data zeros) (lenN perm).
Proof.
  unfold ps_scatter, ps_scatter_q.
  apply (takes_seq (lenN perm) 0); [|intros [[a b] c] _; apply takes_ok|lia].
  apply takes_loop2; [apply range_lenN|]. intros [a b] c x q. reflexivity.
Qed.
Lemma ps_fill_words k look perm level data z d : ps_fill k look perm level data = Ok (z, d) -> lenN (bdata d) = lenN (bdata data).
Proof.
  intros E. apply (forM_keeps (fun '(_, d) => lenN (bdata d) = lenN (bdata data))) in E; auto.
  intros [z1 d1] i [z2 d2] H E1.
  apply bind_inv in E1 as (p & _ & E1). apply bind_inv in E1 as (sh & _ & E1). apply bind_inv in E1 as (b & _ & E1).
  destruct (b =? 0); [injection E1 as <- <-; auto|]. apply bind_inv in E1 as ([d3|] & E3 & E1); [|discriminate]. injection E1 as <- <-.
  unfold bv_set in E3. destruct (_ <=? _); [discriminate|]. apply bind_inv in E3 as (d4 & E4 & E3). injection E3 as <-.
  now rewrite (set_words _ _ _ _ E4).
Qed.
Lemma ps_scatter_len perm next data zeros next' : ps_scatter perm next data zeros = Ok next' -> lenN next' = lenN next.
Proof.
  intros E. unfold ps_scatter in E. apply bind_inv in E as ([[n1 z1] o1] & E & E1). injection E1 as <-.
  apply (forM_keeps (fun '(n1, _, _) => lenN n1 = lenN next)) in E; auto.
  intros [[n2 z2] o2] i [[n3 z3] o3] H E1.
  apply bind_inv in E1 as (p & _ & E1). apply bind_inv in E1 as (b & _ & E1).
  destruct (b =? 0); apply bind_inv in E1 as (n4 & E4 & E1); apply set_idx_len in E4; injection E1 as <- <- <-; lia.
Qed.

Definition sorting_steps (k n : N) : N := (2 * k - 1) * n + k * ((n + 63) / 64) + 2 * k.
Lemma permutation_sorting_takes k n look : takes (permutation_sorting k n look) (permutation_sorting_q k n look) (sorting_steps k n).
Proof.
  unfold permutation_sorting, permutation_sorting_q.
  set (c := fun level => n + if level <? k - 1 then n else 0).
  assert (Hc : sum_cost c (range 0 k) = k + (2 * k - 1) * n).
  { assert (H : forall m, m <= k - 1 -> sum_cost c (range 0 m) = m + 2 * m * n).
    { apply (N_ind1 (fun m => m <= k - 1 -> sum_cost c (range 0 m) = m + 2 * m * n)); [reflexivity|]. intros m IH Hm.
      rewrite range_succ by lia. rewrite sum_cost_app. rewrite IH by lia. cbn [sum_cost fold_right]. unfold c. destruct (N.ltb_spec m (k - 1)); [|lia]. clear. lia. }
    destruct (N.eq_dec k 0) as [->|Hk]; [reflexivity|]. replace k with (k - 1 + 1) at 1 by lia. rewrite range_succ by lia. rewrite sum_cost_app, H by lia.
    cbn [sum_cost fold_right]. unfold c. destruct (N.ltb_spec (k - 1) (k - 1)); [lia|]. clear - Hk. nia. }
  apply (takes_seq (sum_cost c (range 0 k)) (k * ((n + 63) / 64) + k)).
  - apply (takes_forM (fun '(datas, perm, next) => lenN perm = n /\ lenN next = n)).
    + intros [[datas perm] next] level (Hp & Hn) Hl. split.
      * apply (takes_seq n (if level <? k - 1 then n else 0)); [rewrite <- Hp at 3; apply ps_fill_takes| |reflexivity].
        intros [z d] _. cbn beta iota. destruct (level <? k - 1); [|apply takes_ok].
        apply (takes_seq n 0); [rewrite <- Hp at 1; apply ps_scatter_takes| |lia]. intros nx _. apply takes_ok.
      * intros [[datas' perm'] next'] E. apply bind_inv in E as ([z d] & E1 & E). destruct (level <? k - 1).
        -- apply bind_inv in E as (nx & E2 & E). apply ps_scatter_len in E2. injection E as <- <- <-. split; lia.
        -- injection E as <- <- <-. auto.
    + split; [apply range_lenN|apply lenN_replicate].
  - intros [[datas perm] next] E. cbn beta iota.
    assert (H : lenN datas = k /\ Forall (fun d => lenN (bdata d) = (n + 63) / 64) datas).
    { apply (forM_range_keeps (fun i '(datas, _, _) => lenN datas = i /\ Forall (fun d => lenN (bdata d) = (n + 63) / 64) datas)) in E; auto; [lia|].
      intros i [[ds p1] n1] [[ds' p2] n2] [H1 H2] E1. apply bind_inv in E1 as ([z d] & E1 & E2).
      apply ps_fill_words in E1. rewrite zeros_words in E1.
      assert (H : ds' = ds ++ [d]) by (destruct (_ <? _); [apply bind_inv in E2 as (nx & _ & E2)|]; injection E2 as <- _ _; reflexivity).
      subst ds'. rewrite lenN_app, H1. split; [reflexivity|]. apply Forall_app; auto. }
    destruct H as (Hk & HF).
    apply (takes_ext (mapM rs_from_bit_vec datas) _ (mapM_q rs_from_bit_vec_q datas) _ ((1 + (n + 63) / 64) * lenN datas)); [reflexivity|reflexivity|rewrite Hk; clear; lia|].
    apply takes_mapM. intros d Hd. rewrite Forall_forall in HF. rewrite <- (HF d Hd). apply rs_takes.
  - rewrite Hc. unfold sorting_steps. clear. lia.
Qed.

Lemma pc_combine_takes level h : takes (pc_combine level h) (pc_combine_q level h) (2 ^ level).
Proof. apply takes_loop. apply range_lenN. Qed.
Lemma pc_borders_takes level h b : takes (pc_borders level h b) (pc_borders_q level h b) (2 ^ level - 1).
Proof. apply takes_pure. intros b' _. apply takes_loop. apply lenN_range. Qed.
Lemma pc_place_takes k n look elem level b d : takes (pc_place k n look elem level b d) (pc_place_q k n look elem level b d) n.
Proof. apply takes_loop2; [apply range_lenN|reflexivity]. Qed.
Lemma pc_first_takes k n look elem h d : takes (pc_first k n look elem h d) (pc_first_q k n look elem h d) n.
Proof. apply takes_loop2; [apply range_lenN|reflexivity]. Qed.
Definition all_words (m k : N) (ds : list bitvec) : Prop := lenN ds = k /\ Forall (fun d => lenN (bdata d) = m) ds.
Lemma all_words_set m k ds i d ds' : all_words m k ds -> lenN (bdata d) = m -> set_idx ds i d = Ok ds' -> all_words m k ds'.
Proof.
  intros [H1 H2] Hd E. split; [now rewrite (set_idx_len _ _ _ _ E)|]. unfold set_idx in E. destruct (i <? lenN ds); [|discriminate]. injection E as <-.
  now apply Forall_set_nth.
Qed.
Lemma all_words_idx m k ds i d : all_words m k ds -> idx ds i = Ok d -> lenN (bdata d) = m.
Proof.
  intros [_ H] E. apply idx_inv in E as [Hi E]. specialize (E d). rewrite <- E. rewrite Forall_forall in H. apply H. unfold nthN, lenN in *. apply nth_In. lia.
Qed.
Lemma pc_place_words k n look elem level b d b' d' : pc_place k n look elem level b d = Ok (b', d') -> lenN (bdata d') = lenN (bdata d).
Proof.
  intros E. apply (forM_keeps (fun '(_, d1) => lenN (bdata d1) = lenN (bdata d))) in E; auto.
  intros [b1 d1] i [b2 d2] H E1.
  apply bind_inv in E1 as (p & _ & E1). apply bind_inv in E1 as (e & _ & E1). apply bind_inv in E1 as (pos & _ & E1).
  apply bind_inv in E1 as (d3 & E3 & E1). apply bind_inv in E1 as (b3 & _ & E1). injection E1 as <- <-. now rewrite (set_words _ _ _ _ E3).
Qed.
Lemma pc_first_words k n look elem h d h' d' m : all_words m k d -> pc_first k n look elem h d = Ok (h', d') -> all_words m k d'.
Proof.
  intros H E. apply (forM_keeps (fun '(_, d1) => all_words m k d1)) in E; auto.
  intros [h1 d1] i [h2 d2] H1 E1.
  apply bind_inv in E1 as (e & _ & E1). apply bind_inv in E1 as (h3 & _ & E1). apply bind_inv in E1 as (sh & _ & E1). apply bind_inv in E1 as (b & _ & E1).
  apply bind_inv in E1 as (x & Ex & E1). apply bind_inv in E1 as (y & Ey & E1). apply bind_inv in E1 as (d3 & E3 & E1). injection E1 as <- <-.
  apply (all_words_set m k d1 0 y); auto. rewrite (set_words _ _ _ _ Ey). now apply (all_words_idx m k d1 0).
Qed.

Definition counting_steps (k n : N) : N := k * n + (2 ^ (k + 1) - 4) + k * ((n + 63) / 64) + k.
Lemma prefix_counting_takes k n look elem : takes (prefix_counting k n look elem) (prefix_counting_q k n look elem) (counting_steps k n).
Proof.
  unfold prefix_counting, prefix_counting_q. apply takes_pure. intros size Es.
  destruct (N.eq_dec k 0) as [Hk|Hk].
  { subst k. intros w E q. apply bind_inv in E as ([h d] & E & E2). destruct (N.eq_dec n 0) as [->|Hn].
    - unfold pc_first_q. cbn in E. injection E as <- <-. cbn in E2. injection E2 as <-. change (counting_steps 0 0) with 0. destruct (N.leb_spec 0 q); [rewrite N.sub_0_r; reflexivity|lia].
    - exfalso. unfold pc_first in E. rewrite range_cons in E by lia. cbn [forM] in E. apply bind_inv in E as (s & E & _).
      apply bind_inv in E as (e & _ & E). apply bind_inv in E as (h3 & _ & E). apply bind_inv in E as (sh & E & _). discriminate. }
  set (c := fun level => 2 ^ level + (2 ^ level - 1) + n).
  assert (Hc : forall m, sum_cost c (range 1 (m + 1)) = 2 * (2 ^ (m + 1) - 2) + m * n).
  { apply (N_ind1 (fun m => sum_cost c (range 1 (m + 1)) = 2 * (2 ^ (m + 1) - 2) + m * n)); [reflexivity|]. intros m IH.
    rewrite range_succ by lia. rewrite sum_cost_app, IH. cbn [sum_cost fold_right]. unfold c. rewrite (N.pow_add_r 2 (m + 1) 1).
    assert (2 <= 2 ^ (m + 1)) by (rewrite N.pow_add_r; pose proof (N.pow_nonzero 2 m); lia). change (2 ^ 1) with 2. clear - H. lia. }
  apply (takes_seq n (2 * (2 ^ k - 2) + (k - 1) * n + (k * ((n + 63) / 64) + k))); [apply pc_first_takes| |].
  - intros [h d] E. cbn beta iota.
    assert (Hd : all_words ((n + 63) / 64) k d).
    { eapply pc_first_words; [|exact E]. split; [apply lenN_replicate|].
      apply Forall_forall. intros x Hx. unfold replicate in Hx. apply repeat_spec in Hx. subst x. apply zeros_words. }
    apply (takes_seq (2 * (2 ^ k - 2) + (k - 1) * n) (k * ((n + 63) / 64) + k)); [| |reflexivity].
    + replace (2 * (2 ^ k - 2) + (k - 1) * n) with (sum_cost c (rev (range 1 k))).
      2: { rewrite sum_cost_rev. replace k with (k - 1 + 1) at 1 by lia. rewrite Hc. now replace (k - 1 + 1) with k by lia. }
      apply (takes_forM (fun _ => True)); [|auto]. intros [[h1 b1] d1] level _ _. split; [|auto]. unfold c.
      apply (takes_seq (2 ^ level) (2 ^ level - 1 + n)); [apply pc_combine_takes| |clear; lia]. intros h2 _. cbn beta iota.
      apply (takes_seq (2 ^ level - 1) n); [apply pc_borders_takes| |reflexivity]. intros b2 _. cbn beta iota.
      apply takes_pure. intros x _. apply (takes_seq n 0); [apply pc_place_takes| |clear; lia]. intros [b3 x3] _. cbn beta iota.
      apply takes_pure. intros d2 _. apply takes_ok.
    + intros [[h1 b1] d1] E1. cbn beta iota.
      assert (H : all_words ((n + 63) / 64) k d1).
      { apply (forM_keeps (fun '(_, _, d) => all_words ((n + 63) / 64) k d)) in E1; auto.
        intros [[h2 b2] d2] level [[h3 b3] d3] H2 E2. 
        apply bind_inv in E2 as (h4 & _ & E2). apply bind_inv in E2 as (b4 & _ & E2). apply bind_inv in E2 as (x & Ex & E2).
        apply bind_inv in E2 as ([b5 x5] & E5 & E2). apply bind_inv in E2 as (d5 & E6 & E2). injection E2 as <- <- <-.
        apply (all_words_set _ _ d2 level x5); auto. rewrite (pc_place_words _ _ _ _ _ _ _ _ _ E5). now apply (all_words_idx _ k d2 level). }
      destruct H as (H1 & HF).
      apply (takes_ext (mapM rs_from_bit_vec d1) _ (mapM_q rs_from_bit_vec_q d1) _ ((1 + (n + 63) / 64) * lenN d1)); [reflexivity|reflexivity|rewrite H1; clear; lia|].
      apply takes_mapM. intros x Hx. rewrite Forall_forall in HF. rewrite <- (HF x Hx). apply rs_takes.
  - unfold counting_steps. rewrite N.pow_add_r. change (2 ^ 1) with 2. clear - Hk. assert (2 ^ k <> 0) by now apply N.pow_nonzero. 
    assert (k * n = n + (k - 1) * n) by nia. lia.
Qed.

(** C121: sorting the permutation of [n] elements of [k] bits takes [(2k - 1) n] steps for the elements, and for each
    level one step for the level, one for the conversion of the level and one for each of its words. *)
Theorem C121_from_slice sequence k w : wm_from_slice sequence k = Ok w -> forall q,
  let steps := (2 * k - 1) * lenN sequence + k * ((lenN sequence + 63) / 64) + 2 * k in
  wm_from_slice_q sequence k q = if steps <=? q then Ok (w, q - steps) else Diverge.
Proof. intros E q. revert w E q. apply takes_pure. intros ? _. apply permutation_sorting_takes. Qed.
Theorem C121_from_bit_vec bv k w : wm_from_bit_vec bv k = Ok w -> forall q,
  let n := blen bv / k in
  let steps := (2 * k - 1) * n + k * ((n + 63) / 64) + 2 * k in
  wm_from_bit_vec_q bv k q = if steps <=? q then Ok (w, q - steps) else Diverge.
Proof. intros E q. revert w E q. apply takes_pure. intros ? _. apply takes_pure. intros ? _. apply permutation_sorting_takes. Qed.
(** Counting prefixes takes [k n] steps for the elements, and [2^(k + 1) - 4] steps for the prefixes. *)
Theorem C121_from_slice_pc sequence k w : wm_from_slice_pc sequence k = Ok w -> forall q,
  let steps := k * lenN sequence + (2 ^ (k + 1) - 4) + k * ((lenN sequence + 63) / 64) + k in
  wm_from_slice_pc_q sequence k q = if steps <=? q then Ok (w, q - steps) else Diverge.
Proof. intros E q. revert w E q. apply takes_pure. intros ? _. apply prefix_counting_takes. Qed.
Theorem C121_from_bit_vec_pc bv k w : wm_from_bit_vec_pc bv k = Ok w -> forall q,
  let n := blen bv / k in
  let steps := k * n + (2 ^ (k + 1) - 4) + k * ((n + 63) / 64) + k in
  wm_from_bit_vec_pc_q bv k q = if steps <=? q then Ok (w, q - steps) else Diverge.
Proof.
  intros E q. revert w E q. apply takes_pure. intros ? _. apply takes_pure. intros ? _. apply takes_pure. intros ? _.
  apply prefix_counting_takes.
Qed.
(** Sorting is within the documented bound [O(kn log n)], even within [O(kn)]. *)
Theorem C121_sorting_linear sequence k w : wm_from_slice sequence k = Ok w -> sequence <> [] ->
  exists rest, wm_from_slice_q sequence k (5 * k * lenN sequence) = Ok (w, rest).
Proof.
  intros E Hs. rewrite (C121_from_slice _ _ _ E). cbv zeta. set (n := lenN sequence).
  assert (Hn : 1 <= n) by (subst n; destruct sequence; [easy|rewrite lenN_cons'; lia]). clearbody n.
  assert (H1 : (n + 63) / 64 <= n) by (apply N.div_le_upper_bound; lia).
  assert (H2 : k * ((n + 63) / 64) <= k * n) by (apply N.mul_le_mono_l; auto).
  assert (H3 : k * 1 <= k * n) by (apply N.mul_le_mono_l; auto).
  assert (H4 : (2 * k - 1) * n <= 2 * k * n) by (apply N.mul_le_mono_r; lia).
  match goal with |- context [?a <=? ?b] => destruct (N.leb_spec a b) as [H|H] end; [eauto|]. clear - H H2 H3 H4. lia.
Qed.
(** Counting prefixes is not: even for a single element it takes about [2^(k + 1)] steps. *)
Theorem C121_exponential k x : 1 <= k -> k <= 63 -> x < 2 ^ k ->
  exists w, wm_from_slice_pc [x] k = Ok w /\ (forall q, q + 1 < 2 ^ (k + 1) -> wm_from_slice_pc_q [x] k q = Diverge) /\
            wm_from_slice [x] k = Ok w /\ (forall q, 5 * k <= q -> exists rest, wm_from_slice_q [x] k q = Ok (w, rest)).
Proof.
  intros H1 H2 Hx. destruct (C33_slice [x] k) as (w & E1 & E2); auto.
  exists w. split; [exact E1|]. split; [|split; [exact E2|]].
  - intros q Hq. rewrite (C121_from_slice_pc _ _ _ E1). cbv zeta. change (lenN [x]) with 1. change ((1 + 63) / 64) with 1.
    assert (4 <= 2 ^ (k + 1)) by (change 4 with (2 ^ 2); apply N.pow_le_mono_r; lia).
    match goal with |- context [?a <=? ?b] => destruct (N.leb_spec a b) as [H3|H3] end; [|reflexivity]. clear - H3 Hq H H1. lia.
  - intros q Hq. rewrite (C121_from_slice _ _ _ E2). cbv zeta. change (lenN [x]) with 1. change ((1 + 63) / 64) with 1.
    match goal with |- context [?a <=? ?b] => destruct (N.leb_spec a b) as [H3|H3] end; [eauto|]. clear - H3 Hq. lia.
Qed.
Example C121_ex : wm_from_slice_q [3; 1; 2] 2 14 = Diverge /\ (exists w, wm_from_slice_q [3; 1; 2] 2 17 = Ok (w, 2)) /\
  wm_from_slice_pc_q [3; 1; 2] 2 13 = Diverge /\ (exists w, wm_from_slice_pc_q [3; 1; 2] 2 20 = Ok (w, 6)).
Proof. vm_compute. repeat split; try reflexivity; eexists; reflexivity. Qed.

(** ** Range minimum queries. *)
Lemma br_takes data : takes (br_from_vec data) (br_from_vec_q data) (lenN data + N.log2_up (lenN data) * (1 + lenN data)).
Proof.
  unfold br_from_vec, br_from_vec_q. apply takes_pure. intros u _.
  apply (takes_seq (lenN data) (N.log2_up (lenN data) * (1 + lenN data))); [apply takes_loop, range_lenN| |reflexivity]. intros r _. cbn beta iota.
  apply (takes_seq (N.log2_up (lenN data) * (1 + lenN data)) 0); [| |clear; lia].
  - replace (N.log2_up (lenN data) * (1 + lenN data)) with (sum_cost (fun _ : N => lenN data) (range 0 (tz_npt (lenN data)))).
    2: { rewrite sum_cost_const, range_lenN. unfold tz_npt. apply N.mul_comm. }
    apply (takes_forM (fun _ => True)); [|auto]. intros r1 i _ _. split; [|auto]. apply takes_loop, range_lenN.
  - intros r1 _. apply takes_ok.
Qed.
Lemma push_block_takes st block : takes (fr_push_block st block) (fr_push_block_q st block) (2 * (lenN block - 1)).
Proof.
  destruct st as [[ms ids] bs]. unfold fr_push_block, fr_push_block_q. apply takes_pure. intros b0 _.
  apply (takes_seq (lenN block - 1) (lenN block - 1)); [apply takes_loop, lenN_range| |lia]. intros [[[pm pmin] bmin] bidx] _. cbn beta iota.
  apply takes_pure. intros l1 _. apply takes_pure. intros bl _.
  apply (takes_seq (lenN block - 1) 0); [apply takes_loop; rewrite lenN_range; lia| |lia]. intros [sm smin] _. apply takes_ok.
Qed.
Lemma chunks_cost data : sum_cost (fun block => 2 * (lenN block - 1)) (chunks128 data) + (lenN data + 127) / 128 = 2 * lenN data.
Proof.
  unfold chunks128. set (n := lenN data). set (B := (n + 127) / 128).
  assert (H : forall m, m <= B -> sum_cost (fun block => 2 * (lenN block - 1)) (map (fun b => firstn 128 (skipn (N.to_nat (128 * b)) data)) (range 0 m)) + m = 2 * N.min (128 * m) n).
  { apply (N_ind1 (fun m => m <= B -> sum_cost (fun block => 2 * (lenN block - 1)) (map (fun b => firstn 128 (skipn (N.to_nat (128 * b)) data)) (range 0 m)) + m = 2 * N.min (128 * m) n)); [intros _; change (range 0 0) with (@nil N); cbn [map sum_cost fold_right]; clear; lia|].
    intros m IH Hm. rewrite range_succ by lia. rewrite map_app, sum_cost_app. cbn [map sum_cost fold_right].
    assert (E : lenN (firstn 128 (skipn (N.to_nat (128 * m)) data)) = N.min 128 (n - 128 * m)) by (change (lenN (takeN 128 (dropN (128 * m) data)) = N.min 128 (n - 128 * m)); rewrite lenN_takeN, lenN_dropN; reflexivity).
    rewrite E. assert (128 * m < n) by (unfold B in Hm; dlia). specialize (IH ltac:(lia)). clear - IH H. lia. }
  rewrite H by lia. unfold B. dlia.
Qed.
Lemma blocks_minima data ms ids bs : forM (chunks128 data) ([], [], []) fr_push_block = Ok (ms, ids, bs) -> lenN ms = (lenN data + 127) / 128.
Proof.
  intros E. unfold chunks128 in E. rewrite EFProofs.forM_map in E.
  apply (forM_range_keeps (fun i '(ms, _, _) => lenN ms = i)) in E; [exact E|lia|reflexivity|].
  intros i [[m1 i1] b1] [[m2 i2] b2] H E1. unfold fr_push_block in E1.
  apply bind_inv in E1 as (b0 & _ & E1). apply bind_inv in E1 as ([[[pm pmin] bmin] bidx] & _ & E1). apply bind_inv in E1 as (l1 & _ & E1).
  apply bind_inv in E1 as (bl & _ & E1). apply bind_inv in E1 as ([sm smin] & _ & E1). injection E1 as <- _ _. rewrite lenN_app, H. reflexivity.
Qed.

(** C122: [BinaryRmq] takes [n] steps for the first column, and [n + 1] for each further column. *)
Theorem C122_binary data r : br_from_vec data = Ok r -> forall q,
  let steps := lenN data + N.log2_up (lenN data) * (1 + lenN data) in
  br_from_vec_q data q = if steps <=? q then Ok (r, q - steps) else Diverge.
Proof. intros E q. revert r E q. apply br_takes. Qed.
(** [FastRmq] takes two steps for each element, and those of a [BinaryRmq] of the blocks but the first column. *)
Theorem C122_fast data r : fr_from_vec data = Ok r -> forall q,
  let blocks := (lenN data + 127) / 128 in
  let steps := 2 * lenN data + N.log2_up blocks * (1 + blocks) in
  fr_from_vec_q data q = if steps <=? q then Ok (r, q - steps) else Diverge.
Proof.
  intros E q. revert r E q. apply takes_pure. intros u _. pose proof (chunks_cost data) as Hc. set (B := (lenN data + 127) / 128) in *.
  apply (takes_seq (sum_cost (fun block => 2 * (lenN block - 1)) (chunks128 data)) (B + N.log2_up B * (1 + B))); [| |clear - Hc; lia].
  - apply (takes_forM (fun _ => True)); [|auto]. intros st block _ _. split; [apply push_block_takes|auto].
  - intros [[ms ids] bs] E. cbn beta iota. apply blocks_minima in E.
    apply (takes_seq (B + N.log2_up B * (1 + B)) 0); [| |lia]; [|intros m _; apply takes_ok].
    unfold B. rewrite <- E. apply br_takes.
Qed.
(** Both are within the documented bound [O(n log n)]. *)
Theorem C122_bounds data :
  (forall r, br_from_vec data = Ok r -> exists rest, br_from_vec_q data ((1 + lenN data) * (1 + N.log2_up (lenN data))) = Ok (r, rest)) /\
  (forall r, fr_from_vec data = Ok r -> exists rest, fr_from_vec_q data (2 * lenN data + (lenN data / 128 + 2) * N.log2_up (lenN data)) = Ok (r, rest)).
Proof.
  split; intros r E.
  - rewrite (C122_binary _ _ E). cbv zeta. match goal with |- context [?a <=? ?b] => destruct (N.leb_spec a b) as [H|H] end; [eauto|]. clear - H. lia.
  - rewrite (C122_fast _ _ E). cbv zeta. set (B := (lenN data + 127) / 128).
    assert (H1 : B <= lenN data) by (unfold B; dlia). assert (H2 : 1 + B <= lenN data / 128 + 2) by (unfold B; dlia).
    assert (H3 : N.log2_up B * (1 + B) <= N.log2_up (lenN data) * (lenN data / 128 + 2)) by (apply N.mul_le_mono; [now apply N.log2_up_le_mono|auto]).
    match goal with |- context [?a <=? ?b] => destruct (N.leb_spec a b) as [H|H] end; [eauto|]. clear - H H3. lia.
Qed.
Example C122_ex : br_from_vec_q [5; 2; 7] 10 = Diverge /\ (exists r, br_from_vec_q [5; 2; 7] 12 = Ok (r, 1)) /\
  fr_from_vec_q [5; 2; 7] 5 = Diverge /\ (exists r, fr_from_vec_q [5; 2; 7] 6 = Ok (r, 0)).
Proof. vm_compute. repeat split; try reflexivity; eexists; reflexivity. Qed.
