(** Proof_Numbers: prime factors, least common multiple, binomial coefficients, hypercube
    edges, integer partitions. *)

From Coq Require Import List Arith ZArith Bool Lia Permutation Sorted Factorial.
From Verif Require Import Model_Base Lib Model_Binary Spec_Bits Proof_Binary Proof_Helpers.
Import ListNotations.

(** * prime factors *)

Definition prod (l : list nat) : nat := fold_right Nat.mul 1 l.

Lemma prod_app a b : prod (a ++ b) = prod a * prod b.
Proof. unfold prod. induction a as [|x a IH]; cbn [app fold_right]; [lia|]. rewrite IH. lia. Qed.

Lemma divides_mod d n : d <> 0 -> divides d n <-> n mod d = 0.
Proof. intro H. change (divides d n) with (Nat.divide d n). symmetry. apply Nat.mod_divide. exact H. Qed.

Lemma no_small_divisor_prime n : 2 <= n ->
  (forall e, 2 <= e -> divides e n -> e * e <= n -> e = n) -> prime n.
Proof.
  intros Hn H. split; [exact Hn|]. intros d [c Hc].
  destruct (Nat.eq_dec d 1); [left; assumption|]. right.
  assert (Hd0 : d <> 0) by (intro; subst d; lia).
  destruct (Nat.le_gt_cases (d * d) n) as [Hs|Hs].
  - apply H; [lia | exists c; exact Hc | exact Hs].
  - assert (c < d) by nia. destruct (Nat.eq_dec c 1); [lia|].
    assert (c <> 0) by (intro; subst c; lia).
    assert (c = n). { apply H; [lia | exists d; lia | nia]. }
    subst. assert (d = 1) by nia. lia.
Qed.

Lemma prime_factors_loop_spec fuel n d factors : 2 <= d -> 1 <= n -> 2 * n < fuel + d -> 
  (forall e, 2 <= e -> e < d -> ~ divides e n) ->
  exists fs m, prime_factors_loop fuel n d factors = Ok (factors ++ fs, m) /\
    Forall prime fs /\ prod fs * m = n /\ (m = 1 \/ prime m) \/ 2 * n < d.
Proof.
  revert n d factors; induction fuel as [|fuel IH]; intros n d factors Hd Hn Hf Hs.
  - exists [], 0. right. lia.
  - cbn [prime_factors_loop]. destruct (Nat.leb_spec (d * d) n) as [Hle|Hgt].
    + destruct (Nat.eqb_spec (n mod d) 0) as [Hm|Hm].
      * apply divides_mod in Hm; [|lia]. destruct Hm as [c Hc].
        assert (Hdiv : n / d = c) by (rewrite Hc; apply Nat.div_mul; lia). rewrite Hdiv.
        assert (1 <= c) by (destruct c; lia). assert (2 * c <= n) by nia.
        assert (d <= c) by nia.
        destruct (IH c d (factors ++ [d])) as [fs [m [[E [P1 [P2 P3]]]|Hbad]]]; [lia | lia | lia | | |lia].
        -- intros e He1 He2 [c' Hc']. apply (Hs e He1 He2). exists (c' * d). nia.
        -- exists (d :: fs), m. left. rewrite E, <- app_assoc. split; [reflexivity|]. split; [|split; [|exact P3]].
           ++ constructor; [|exact P1]. apply no_small_divisor_prime; [exact Hd|]. intros e He [c' Hc'] Hee.
              destruct (Nat.eq_dec e d); [assumption|]. exfalso. assert (e < d) by nia.
              apply (Hs e He H2). exists (c * c'). nia.
           ++ cbn [prod fold_right]. change (fold_right Nat.mul 1 fs) with (prod fs). nia.
      * destruct (IH n (S d) factors) as [fs [m [HH|Hbad]]]; [lia | lia | lia | | |nia].
        -- intros e He1 He2. destruct (Nat.eq_dec e d) as [->|]; [|apply Hs; lia].
           intro Hc. apply divides_mod in Hc; [|lia]. contradiction.
        -- exists fs, m. left. exact HH.
    + exists [], n. left. rewrite app_nil_r. split; [reflexivity|]. split; [constructor|]. split; [cbn; lia|].
      destruct (Nat.eq_dec n 1); [left; assumption|]. right. apply no_small_divisor_prime; [lia|].
      intros e He Hdv Hee. exfalso. apply (Hs e He); [nia | exact Hdv].
Qed.

Lemma prime_factor_list_spec n : 1 <= n ->
  exists l, prime_factor_list n = Ok l /\ Forall prime l /\ prod l = n.
Proof.
  intro Hn. unfold prime_factor_list.
  destruct (prime_factors_loop_spec (2 * n + 2) n 2 []) as [fs [m [[E [P1 [P2 P3]]]|Hbad]]];
    [lia | lia | lia | intros; lia | | ].
  - rewrite E. cbn [bind fst snd app]. destruct (Nat.ltb_spec 1 m) as [H|H].
    + exists (fs ++ [m]). split; [reflexivity|]. split.
      * apply Forall_app. split; [exact P1|]. constructor; [|constructor]. destruct P3; [lia | assumption].
      * rewrite prod_app. cbn. lia.
    + exists fs. split; [reflexivity|]. split; [exact P1|]. destruct P3 as [->|[P3 _]]; lia.
  - assert (n = 0) by lia. lia.
Qed.

Lemma prime_divides_mul p a b : prime p -> divides p (a * b) -> divides p a \/ divides p b.
Proof.
  intros [Hp Hd] H. destruct (Nat.eq_dec (Nat.gcd p a) 1) as [G|G].
  - right. apply (Nat.gauss p a b H G).
  - left. destruct (Hd (Nat.gcd p a) (Nat.gcd_divide_l p a)) as [E|E]; [contradiction|].
    rewrite <- E. apply Nat.gcd_divide_r.
Qed.

Lemma prime_divides_prod p l : prime p -> Forall prime l -> divides p (prod l) -> In p l.
Proof.
  intros Hp H. induction H as [|q l Hq Hl IH]; cbn [prod fold_right]; intro D.
  - destruct Hp as [Hp _]. destruct D as [c Hc]. cbn in Hc. destruct c; nia.
  - apply prime_divides_mul in D as [D|D]; [left | right; apply IH; exact D | exact Hp].
    destruct Hq as [_ Hq]. destruct (Hq p D) as [->|E]; [destruct Hp; lia | congruence].
Qed.

Lemma prod_cons q l : prod (q :: l) = q * prod l.
Proof. reflexivity. Qed.

Lemma prod_split p l : prod l = p ^ count_nat l p * prod (filter (fun q => negb (Nat.eqb p q)) l).
Proof.
  unfold count_nat. induction l as [|q l IH]; [reflexivity|]. cbn [filter]. rewrite prod_cons, IH.
  destruct (Nat.eqb_spec p q) as [->|]; cbn [negb length].
  - rewrite Nat.pow_succ_r'. apply Nat.mul_assoc.
  - rewrite prod_cons. ring.
Qed.

Lemma count_multiplicity p l : prime p -> Forall prime l ->
  divides (p ^ count_nat l p) (prod l) /\ ~ divides (p ^ S (count_nat l p)) (prod l).
Proof.
  intros Hp Hl. rewrite (prod_split p l). split; [eexists; apply Nat.mul_comm|].
  intros [c Hc]. rewrite Nat.pow_succ_r' in Hc.
  assert (Hpow : p ^ count_nat l p <> 0) by (apply Nat.pow_nonzero; destruct Hp; lia).
  assert (E : prod (filter (fun q => negb (p =? q)) l) = c * p) by (apply (Nat.mul_cancel_l _ _ (p ^ count_nat l p)); [exact Hpow | lia]).
  assert (In p (filter (fun q => negb (p =? q)) l)).
  { apply prime_divides_prod; [exact Hp | | exists c; exact E]. apply Forall_forall. intros q Hq. apply filter_In in Hq as [Hq _].
    rewrite Forall_forall in Hl. apply Hl. exact Hq. }
  apply filter_In in H as [_ H]. rewrite Nat.eqb_refl in H. discriminate.
Qed.

Lemma count_pos l p : In p l <-> 1 <= count_nat l p.
Proof.
  unfold count_nat. induction l as [|q l IH]; cbn [In filter]; [cbn; lia|].
  destruct (Nat.eqb_spec p q) as [->|Hne]; cbn [length]; [split; [lia | auto]|].
  rewrite <- IH. split; [intros [->|]; [congruence | assumption] | auto].
Qed.

Definition dict_prod (d : dict) : nat := prod (map (fun pe => fst pe ^ snd pe) d).

Lemma prod_nodup l keys : NoDup keys -> (forall q, In q l -> In q keys) ->
  prod (map (fun p => p ^ count_nat l p) keys) = prod l.
Proof.
  intro Hk. revert l; induction Hk as [|p keys Hp Hn IH]; intros l Hl; cbn [map prod fold_right].
  - destruct l as [|q l]; [reflexivity | destruct (Hl q); left; reflexivity].
  - rewrite (prod_split p l). f_equal.
    change (fold_right Nat.mul 1 ?x) with (prod x).
    rewrite <- (IH (filter (fun q => negb (p =? q)) l)).
    + f_equal. apply map_ext_in. intros q Hq. f_equal. unfold count_nat.
      assert (q <> p) by congruence. clear -H.
      induction l as [|x l IHl]; [reflexivity|]. cbn [filter].
      destruct (Nat.eqb_spec p x) as [->|]; cbn [negb filter].
      * rewrite (proj2 (Nat.eqb_neq q x)) by congruence. exact IHl.
      * destruct (Nat.eqb q x); cbn [length]; rewrite IHl; reflexivity.
    + intros q Hq. apply filter_In in Hq as [Hq Hne]. apply negb_true_iff, Nat.eqb_neq in Hne.
      destruct (Hl q Hq); [congruence | assumption].
Qed.

Lemma prime_factors_spec n : 1 <= n ->
  exists d, prime_factors n = Ok d /\ StronglySorted lt (dkeys d) /\
    (forall p, In p (dkeys d) <-> prime p /\ divides p n) /\
    (forall p e, In (p, e) d -> 1 <= e /\ divides (p ^ e) n /\ ~ divides (p ^ S e) n) /\
    dict_prod d = n.
Proof.
  intro Hn. destruct (prime_factor_list_spec n Hn) as [l [E [Hp Hprod]]].
  unfold prime_factors. rewrite E. cbn [bind]. unfold inventory_dict.
  set (keys := sort_nat (nodupb l)).
  assert (Hkeys : forall p, In p keys <-> In p l) by (intro p; unfold keys; rewrite sort_nat_In; apply nodupb_In).
  assert (Hks : StronglySorted lt keys) by (apply sort_nat_sorted_lt, nodupb_NoDup).
  assert (Hdk : dkeys (map (fun value => (value, count_nat l value)) keys) = keys).
  { unfold dkeys. rewrite map_map. cbn [fst]. apply map_id. }
  exists (map (fun value => (value, count_nat l value)) keys). split; [reflexivity|].
  rewrite Hdk. split; [exact Hks|]. split; [|split].
  - intro p. rewrite Hkeys. split.
    + intro Hi. rewrite Forall_forall in Hp. split; [apply Hp; exact Hi|]. rewrite <- Hprod. clear -Hi.
      induction l as [|q l IH]; [destruct Hi|]. cbn [prod fold_right]. destruct Hi as [->|Hi].
      * eexists. apply Nat.mul_comm.
      * destruct (IH Hi) as [c Hc]. exists (q * c). change (fold_right Nat.mul 1 l) with (prod l). lia.
    + intros [H1 H2]. apply prime_divides_prod; [exact H1 | exact Hp | rewrite Hprod; exact H2].
  - intros p e Hi. apply in_map_iff in Hi as [q [[= <- <-] Hq]]. apply Hkeys in Hq.
    split; [apply count_pos; exact Hq|]. rewrite <- Hprod. apply count_multiplicity; [|exact Hp].
    rewrite Forall_forall in Hp. apply Hp. exact Hq.
  - unfold dict_prod. rewrite map_map. cbn [fst snd]. rewrite <- Hprod. apply prod_nodup; [apply sorted_lt_NoDup; exact Hks|].
    intros q Hq. apply Hkeys. exact Hq.
Qed.

Lemma prime_exponents_spec n expected : 1 <= n ->
  ((forall p, prime p -> divides p n -> In p expected) ->
     exists es, prime_exponents n expected = Ok es /\
       Forall2 (fun p e => prime p -> divides (p ^ e) n /\ ~ divides (p ^ S e) n) (sort_nat (nodupb expected)) es) /\
  ((exists p, prime p /\ divides p n /\ ~ In p expected) -> prime_exponents n expected = Err UnexpectedFactorError).
Proof.
  intro Hn. destruct (prime_factors_spec n Hn) as [d [E [Hs [Hk [He _]]]]]. unfold prime_exponents. rewrite E. cbn [bind]. split.
  - intro H. rewrite (proj2 (forallb_forall _ _)).
    + cbn [true_except bind]. eexists. split; [reflexivity|].
      induction (sort_nat (nodupb expected)) as [|p l IH]; cbn [map]; constructor; [|exact IH].
      intro Hp. destruct (dget d p) as [e|] eqn:Eg.
      * apply dget_In in Eg. destruct (He p e Eg) as [_ HH]. exact HH.
      * split; [exists n; cbn; lia|]. rewrite Nat.pow_1_r. intro Hd.
        assert (Hin : In p (dkeys d)) by (apply Hk; auto). unfold dkeys in Hin. apply in_map_iff in Hin as [[p' e] [Ep Hi]]; cbn in Ep; subst p'.
        rewrite (In_dget d p e) in Eg; [discriminate | | exact Hi]. apply sorted_lt_NoDup. exact Hs.
    + intros p Hp. apply memb_In. apply Hk in Hp as [H1 H2]. apply H; assumption.
  - intros [p [H1 [H2 H3]]]. destruct (forallb _ _) eqn:Ef; [|reflexivity]. exfalso.
    rewrite forallb_forall in Ef. apply H3. apply memb_In, Ef, Hk. auto.
Qed.

(** * lcm *)

Lemma lcm_eq a b : Nat.gcd a b <> 0 -> a * b / Nat.gcd a b = Nat.lcm a b.
Proof. intro H. unfold Nat.lcm. apply Nat.divide_div_mul_exact; [exact H | apply Nat.gcd_divide_r]. Qed.

Lemma multi_lcm_spec l : l <> [] -> (forall x, In x l -> 1 <= x) ->
  exists m, multi_lcm l = Ok m /\ 1 <= m /\ (forall x, In x l -> divides x m) /\
    forall k, (forall x, In x l -> divides x k) -> divides m k.
Proof.
  destruct l as [|x l]; [congruence|]. intros _ H. unfold multi_lcm.
  assert (G : forall l a, 1 <= a -> (forall x, In x l -> 1 <= x) ->
     exists m, foldM (fun a b => if Nat.gcd a b =? 0 then Err ZeroDivErr else Ok (a * b / Nat.gcd a b)) l a = Ok m /\ 1 <= m /\
       divides a m /\ (forall x, In x l -> divides x m) /\
       forall k, divides a k -> (forall x, In x l -> divides x k) -> divides m k).
  { clear. induction l as [|y l IH]; intros a Ha Hl; cbn [foldM].
    - exists a. split; [reflexivity|]. split; [exact Ha|]. split; [exists 1; lia|]. split; [intros x []|]. auto.
    - assert (Hy : 1 <= y) by (apply Hl; left; reflexivity).
      assert (Hg : Nat.gcd a y <> 0) by (intro Hg; apply Nat.gcd_eq_0 in Hg; lia).
      rewrite (proj2 (Nat.eqb_neq _ _) Hg). cbn [bind]. rewrite lcm_eq by exact Hg.
      assert (Hpos : 1 <= Nat.lcm a y) by (assert (Nat.lcm a y <> 0) by (intro Hz; apply Nat.lcm_eq_0 in Hz; lia); lia).
      destruct (IH (Nat.lcm a y) Hpos (fun x Hx => Hl x (or_intror Hx))) as [m [E [Hm [D1 [D2 D3]]]]].
      exists m. split; [exact E|]. split; [exact Hm|]. split; [|split].
      + apply (Nat.divide_trans a (Nat.lcm a y) m); [apply Nat.divide_lcm_l | exact D1].
      + intros x [<-|Hx]; [|apply D2; exact Hx]. apply (Nat.divide_trans y (Nat.lcm a y) m); [apply Nat.divide_lcm_r | exact D1].
      + intros k Hk1 Hk2. apply D3; [|intros x Hx; apply Hk2; right; exact Hx].
        apply (Nat.lcm_least a y k); [exact Hk1 | apply Hk2; left; reflexivity]. }
  destruct (G l x (H x (or_introl eq_refl)) (fun y Hy => H y (or_intror Hy))) as [m [E [Hm [D1 [D2 D3]]]]].
  exists m. split; [exact E|]. split; [exact Hm|]. split.
  - intros y [<-|Hy]; [exact D1 | apply D2; exact Hy].
  - intros k Hk. apply D3; [apply Hk; left; reflexivity | intros y Hy; apply Hk; right; exact Hy].
Qed.

(** * binomials *)

Lemma subsets_spec k n s : In s (subsets k n) <-> StronglySorted lt s /\ length s = k /\ forall x, In x s -> x < n.
Proof.
  revert k s; induction n as [|n IH]; intros k s.
  - destruct k as [|k]; cbn [subsets In].
    + split.
      * intros [<-|[]]. split; [constructor|]. split; [reflexivity | intros x []].
      * intros [_ [H _]]. apply length_zero_iff_nil in H. auto.
    + split; [tauto|]. intros [_ [H H2]]. destruct s as [|x s]; [discriminate|]. specialize (H2 x (or_introl eq_refl)). lia.
  - destruct k as [|k]; cbn [subsets].
    + split.
      * intros [<-|[]]. split; [constructor|]. split; [reflexivity | intros x []].
      * intros [_ [H _]]. apply length_zero_iff_nil in H. left; auto.
    + rewrite in_app_iff, in_map_iff, IH. split.
      * intros [[H1 [H2 H3]]|[t [<- Ht]]].
        -- split; [exact H1|]. split; [exact H2|]. intros x Hx. specialize (H3 x Hx). lia.
        -- apply IH in Ht as [H1 [H2 H3]]. split; [|split].
           ++ clear -H1 H3. induction H1 as [|x t Ht IHt Hx]; cbn [app]; [repeat constructor|].
              constructor; [apply IHt; intros y Hy; apply H3; right; exact Hy|]. apply Forall_app. split; [exact Hx|].
              constructor; [apply H3; left; reflexivity | constructor].
           ++ rewrite app_length. cbn. lia.
           ++ intros x Hx. apply in_app_iff in Hx as [Hx|[<-|[]]]; [specialize (H3 x Hx); lia | lia].
      * intros [H1 [H2 H3]]. destruct (in_dec Nat.eq_dec n s) as [Hi|Hi].
        -- right. destruct (@exists_last _ s) as [t [y Ey]]; [intro; subst; discriminate|]. subst s.
           rewrite app_length in H2. cbn in H2.
           assert (Hty : forall x, In x t -> x < y).
           { clear -H1. induction t as [|z t IHt]; intros x Hx; [destruct Hx|]. cbn [app] in H1. inversion_clear H1.
             destruct Hx as [<-|Hx]; [|apply IHt; assumption]. rewrite Forall_forall in H0. apply H0, in_app_iff. right; left; reflexivity. }
           assert (y = n).
           { apply in_app_iff in Hi as [Hi|[Hi|[]]]; [|exact Hi]. specialize (Hty n Hi). assert (Hy := H3 y). rewrite in_app_iff in Hy. specialize (Hy (or_intror (or_introl eq_refl))). lia. }
           subst y. exists t. split; [reflexivity|]. apply IH. split; [|split; [lia | exact Hty]].
           clear -H1. induction t as [|z t IHt]; [constructor|]. cbn [app] in H1. inversion_clear H1. apply Forall_app in H0 as [H0 _].
           constructor; [apply IHt; exact H | exact H0].
        -- left. split; [exact H1|]. split; [exact H2|]. intros x Hx. specialize (H3 x Hx).
           assert (x <> n) by congruence. lia.
Qed.

Lemma subsets_NoDup k n : NoDup (subsets k n).
Proof.
  revert k; induction n as [|n IH]; intros [|k]; cbn [subsets]; try (repeat constructor; intros []).
  assert (G : forall (a b : list (list nat)), NoDup a -> NoDup b -> (forall x, In x a -> In x b -> False) -> NoDup (a ++ b)).
  { clear. induction a as [|x a IH]; intros b Ha Hb H; [exact Hb|]. inversion_clear Ha. cbn [app]. constructor.
    - rewrite in_app_iff. intros [Hc|Hc]; [contradiction | apply (H x); [left; reflexivity | exact Hc]].
    - apply IH; [assumption | assumption |]. intros y Hy. apply H. right; exact Hy. }
  apply G; [apply IH | |].
  - apply NoDup_map_inj; [apply IH|]. intros s t _ _ E. apply app_inj_tail in E. tauto.
  - intros s H1 H2. apply subsets_spec in H1 as [_ [_ H1]]. apply in_map_iff in H2 as [t [<- _]].
    assert (n < n) by (apply H1, in_app_iff; right; left; reflexivity). lia.
Qed.

Lemma subsets_pascal k n : length (subsets (S k) (S n)) = length (subsets (S k) n) + length (subsets k n).
Proof. cbn [subsets]. rewrite app_length, map_length. reflexivity. Qed.

Lemma subsets_over k n : n < k -> subsets k n = [].
Proof.
  revert k; induction n as [|n IH]; intros [|k] H; try lia; [reflexivity|]. cbn [subsets]. rewrite !IH by lia. reflexivity.
Qed.

Lemma subsets_fact k n : k <= n -> length (subsets k n) * (fact k * fact (n - k)) = fact n.
Proof.
  revert k; induction n as [|n IH]; intros k H; [assert (k = 0) by lia; subst; reflexivity|].
  destruct k as [|k]; [cbn [subsets length Nat.sub]; change (fact 0) with 1; lia|].
  rewrite subsets_pascal. cbn [Nat.sub].
  assert (Hk := IH k ltac:(lia)).
  destruct (Nat.eq_dec k n) as [->|Hne].
  - rewrite subsets_over by lia. rewrite Nat.sub_diag in *. change (fact (S n)) with (S n * fact n). cbn [length]. nia.
  - assert (Hk1 := IH (S k) ltac:(lia)).
    replace (n - k) with (S (n - S k)) in * by lia.
    change (fact (S (n - S k))) with (S (n - S k) * fact (n - S k)) in *.
    change (fact (S n)) with (S n * fact n). change (fact (S k)) with (S k * fact k) in *.
    set (a := length (subsets (S k) n)) in *. set (b := length (subsets k n)) in *.
    set (F := fact k) in *. set (G := fact (n - S k)) in *. set (m := n - S k) in *.
    assert (Em : n = m + S k) by (unfold m; lia). clearbody a b F G m.
    assert (E : (a + b) * (S k * F * (S m * G)) = S m * (a * (S k * F * G)) + S k * (b * (F * (S m * G)))) by ring.
    rewrite E, Hk1, Hk. rewrite Em at 3. ring.
Qed.

Lemma binom_spec n k : k <= n -> binom n k = Ok (length (subsets k n)).
Proof.
  intro H. unfold binom. rewrite (proj2 (Nat.leb_le _ _) H). cbn [true_except bind]. f_equal.
  assert (E := subsets_fact k n H). symmetry. apply Nat.div_unique_exact; [|lia].
  apply Nat.neq_mul_0. split; apply fact_neq_0.
Qed.

(** * hypercube edges *)

Lemma pair_leb_total a b : pair_leb a b = true \/ pair_leb b a = true.
Proof.
  unfold pair_leb. destruct a as [a1 a2], b as [b1 b2]. cbn [fst snd].
  destruct (Nat.ltb_spec a1 b1), (Nat.ltb_spec b1 a1), (Nat.eqb_spec a1 b1), (Nat.eqb_spec b1 a1), (Nat.leb_spec a2 b2), (Nat.leb_spec b2 a2); cbn; auto; lia.
Qed.

Definition edge (n : nat) (a b : nat) : Prop := b < 2 ^ n /\ exists k, Nat.testbit a k = false /\ b = a + 2 ^ k.

Lemma testbit_add_high a n k : k < n -> Nat.testbit (a + 2 ^ n) k = Nat.testbit a k.
Proof.
  intro H. replace (2 ^ n) with (2 ^ (n - k) * 2 ^ k) by (rewrite <- Nat.pow_add_r; f_equal; lia).

  assert (E : Nat.b2n (Nat.testbit (a + 2 ^ (n - k) * 2 ^ k) k) = Nat.b2n (Nat.testbit a k)).
  { rewrite !Nat.testbit_spec', Nat.div_add by (apply Nat.pow_nonzero; lia).
    replace (n - k) with (S (n - k - 1)) by lia. rewrite Nat.pow_succ_r', (Nat.mul_comm 2), Nat.mod_add by lia. reflexivity. }
  destruct (Nat.testbit _ k), (Nat.testbit a k); cbn in E; congruence.
Qed.

Lemma testbit_pow_le a k n : a < 2 ^ n -> 2 ^ k + a < 2 ^ n -> k < n.
Proof. intros _ H. apply (Nat.pow_lt_mono_r_iff 2); lia. Qed.

Lemma hypercube_edges_S n : 1 <= n -> hypercube_edges (S n) =
  isort pair_leb (hypercube_edges n ++ map (fun ab => (fst ab + 2 ^ n, snd ab + 2 ^ n)) (hypercube_edges n)
                  ++ map (fun i => (i, i + 2 ^ n)) (range (2 ^ n))).
Proof. intro H. destruct n; [lia|]. reflexivity. Qed.

Lemma hypercube_edges_In n a b : In (a, b) (hypercube_edges n) <-> edge n a b.
Proof.
  revert a b; induction n as [|n IH]; intros a b.
  - cbn [hypercube_edges In]. split; [tauto|]. intros [H [k [_ E]]]. assert (2 ^ k <> 0) by (apply Nat.pow_nonzero; lia). cbn in H. lia.
  - destruct n as [|n'].
    + cbn [hypercube_edges In]. split.
      * intros [[= <- <-]|[]]. split; [cbn; lia|]. exists 0. auto.
      * intros [H [k [_ E]]]. left. assert (2 ^ k <> 0) by (apply Nat.pow_nonzero; lia). cbn in H. f_equal; lia.
    + assert (Hn1 : 1 <= S n') by lia. revert Hn1 IH. generalize (S n'). clear n'. intros n Hn1 IH. rewrite hypercube_edges_S by exact Hn1.
      rewrite <- (Permutation_in' eq_refl (isort_perm pair_leb _)).
      rewrite !in_app_iff, !in_map_iff. rewrite IH.
      assert (Hpow : forall m, 2 ^ m <> 0) by (intro m; apply Nat.pow_nonzero; lia).
      split.
      * intros [[H [k [T E]]]|[[[a' b'] [[= <- <-] Hi]]|[i [[= <- <-] Hi]]]].
        -- split; [rewrite Nat.pow_succ_r'; lia | exists k; auto].
        -- apply IH in Hi as [H [k [T E]]]. split; [rewrite Nat.pow_succ_r'; cbn [snd]; lia|]. exists k. cbn [fst snd].
           assert (k < n) by (apply (Nat.pow_lt_mono_r_iff 2); lia).
           rewrite testbit_add_high by assumption. split; [exact T | lia].
        -- apply range_In in Hi. split; [rewrite Nat.pow_succ_r'; lia|]. exists n. split; [apply testbit_high; exact Hi | reflexivity].
      * intros [H [k [T E]]]. rewrite Nat.pow_succ_r' in H.
        assert (Hk : k < S n) by (apply (Nat.pow_lt_mono_r_iff 2); [lia | rewrite Nat.pow_succ_r'; lia]).
        destruct (Nat.eq_dec k n) as [->|Hne].
        -- right; right. exists a. split; [f_equal; lia | apply range_In; lia].
        -- assert (k < n) by lia. destruct (Nat.lt_ge_cases a (2 ^ n)) as [Ha|Ha].
           ++ left. split; [|exists k; auto]. subst b. rewrite Nat.add_comm. apply bits_lt_pow. intros i Hi.
              rewrite testbit_add_pow by exact T. rewrite (proj2 (Nat.eqb_neq i k)) by lia. cbn.
              apply testbit_high. apply Nat.lt_le_trans with (2 ^ n); [exact Ha | apply Nat.pow_le_mono_r; lia].
           ++ right; left. exists (a - 2 ^ n, b - 2 ^ n). split; [cbn [fst snd]; f_equal; lia|]. apply IH. split; [lia|].
              exists k. split; [|lia]. rewrite <- (testbit_add_high (a - 2 ^ n) n k) by assumption.
              replace (a - 2 ^ n + 2 ^ n) with a by lia. exact T.
Qed.

Lemma NoDup_app3 {A} (a b : list A) : NoDup a -> NoDup b -> (forall x, In x a -> In x b -> False) -> NoDup (a ++ b).
Proof.
  induction a as [|x a IH]; intros Ha Hb H; [exact Hb|]. inversion_clear Ha. cbn [app]. constructor.
  - rewrite in_app_iff. intros [Hc|Hc]; [contradiction | apply (H x); [left; reflexivity | exact Hc]].
  - apply IH; [assumption | assumption |]. intros y Hy. apply H. right; exact Hy.
Qed.

Lemma hypercube_edges_NoDup n : NoDup (hypercube_edges n).
Proof.
  induction n as [|n IH]; [constructor|]. destruct n as [|n']; [repeat constructor; intros []|].
  assert (Hn1 : 1 <= S n') by lia. revert Hn1 IH. generalize (S n'). clear n'. intros n Hn1 IH. rewrite hypercube_edges_S by exact Hn1.
  eapply Permutation_NoDup; [apply isort_perm|].
  assert (Hpow : forall m, 2 ^ m <> 0) by (intro m; apply Nat.pow_nonzero; lia).
  apply NoDup_app3; [exact IH | apply NoDup_app3 |].
  - apply NoDup_map_inj; [exact IH|]. intros [a b] [c d] _ _ [= E1 E2]. f_equal; lia.
  - apply NoDup_map_inj; [apply range_NoDup|]. intros a b _ _ [= E _]. exact E.
  - intros [a b] H1 H2. apply in_map_iff in H1 as [[c d] [[= <- <-] _]]. apply in_map_iff in H2 as [i [[= E1 E2] Hi]].
    apply range_In in Hi. lia.
  - intros [a b] H1 H2. apply hypercube_edges_In in H1 as [H1 [k [_ Ek]]]. apply in_app_iff in H2 as [H2|H2]; apply in_map_iff in H2.
    + destruct H2 as [[c d] [[= <- <-] _]]. cbn [fst snd] in *. lia.
    + destruct H2 as [i [[= <- <-] _]]. lia.
Qed.

Lemma pair_leb_trans a b c : pair_leb a b = true -> pair_leb b c = true -> pair_leb a c = true.
Proof.
  unfold pair_leb. rewrite !orb_true_iff, !andb_true_iff, !Nat.ltb_lt, !Nat.eqb_eq, !Nat.leb_le. lia.
Qed.

Lemma hypercube_edges_sorted n : StronglySorted (fun a b => pair_leb a b = true) (hypercube_edges n).
Proof.
  destruct n as [|[|n]]; [constructor | repeat constructor |]. rewrite hypercube_edges_S by lia.
  apply (isort_sorted pair_leb pair_leb_total pair_leb_trans).
Qed.

Lemma hypercube_edges_length n : 2 * length (hypercube_edges n) = n * 2 ^ n.
Proof.
  induction n as [|n IH]; [reflexivity|]. destruct n as [|n']; [reflexivity|].
  assert (Hn1 : 1 <= S n') by lia. revert Hn1 IH. generalize (S n'). clear n'. intros n Hn1 IH. rewrite hypercube_edges_S by exact Hn1.
  rewrite <- (Permutation_length (isort_perm pair_leb _)). rewrite !app_length, !map_length, range_length, Nat.pow_succ_r'. lia.
Qed.

(** * integer partitions *)

Definition partition_of (n : nat) (p : list nat) : Prop :=
  StronglySorted le p /\ (forall x, In x p -> 1 <= x) /\ list_sum_nat p = n.

Lemma tuple_memb_In x l : tuple_memb x l = true <-> In x l.
Proof.
  induction l as [|y l IH]; cbn [tuple_memb In]; [split; [discriminate | tauto]|].
  rewrite orb_true_iff, list_eqb_eq, IH. split; (intros [H|H]; [left; congruence | right; exact H]).
Qed.

Lemma tuple_add_In s x y : In y (tuple_add s x) <-> y = x \/ In y s.
Proof.
  unfold tuple_add. destruct (tuple_memb x s) eqn:E.
  - apply tuple_memb_In in E. split; [auto | intros [->|H]; assumption].
  - rewrite in_app_iff. cbn. split; [intros [H|[H|[]]]; auto | intros [->|H]; auto].
Qed.

Lemma tuple_add_NoDup s x : NoDup s -> NoDup (tuple_add s x).
Proof.
  intro H. unfold tuple_add. destruct (tuple_memb x s) eqn:E; [exact H|].
  apply NoDup_app3; [exact H | repeat constructor; intros []|].
  intros y Hy [<-|[]]. apply tuple_memb_In in Hy. congruence.
Qed.

Lemma tuple_fold_In {B} (f : B -> list nat) l s y :
  In y (fold_left (fun r z => tuple_add r (f z)) l s) <-> In y s \/ exists z, In z l /\ y = f z.
Proof.
  revert s; induction l as [|x l IH]; intro s; cbn [fold_left].
  - split; [auto | intros [H|[z [[] _]]]; exact H].
  - rewrite IH, tuple_add_In. split.
    + intros [[->|H]|[z [Hz ->]]]; [right; exists x; cbn; auto | left; exact H | right; exists z; cbn; auto].
    + intros [H|[z [[<-|Hz] ->]]]; [auto | auto | right; exists z; auto].
Qed.

Lemma tuple_fold_NoDup {B} (f : B -> list nat) l s : NoDup s -> NoDup (fold_left (fun r z => tuple_add r (f z)) l s).
Proof. revert s; induction l as [|x l IH]; intros s H; cbn [fold_left]; [exact H|]. apply IH, tuple_add_NoDup, H. Qed.

Lemma tuple_fold2_In (g : nat -> list (list nat)) (f : nat -> list nat -> list nat) l s y :
  In y (fold_left (fun r x => fold_left (fun r z => tuple_add r (f x z)) (g x) r) l s) <->
  In y s \/ exists x z, In x l /\ In z (g x) /\ y = f x z.
Proof.
  revert s; induction l as [|x l IH]; intro s; cbn [fold_left].
  - split; [auto | intros [H|[x [z [[] _]]]]; exact H].
  - rewrite IH, tuple_fold_In. split.
    + intros [[H|[z [Hz ->]]]|[x' [z [Hx [Hz ->]]]]]; [auto | right; exists x, z; cbn; auto | right; exists x', z; cbn; auto].
    + intros [H|[x' [z [[<-|Hx] [Hz ->]]]]]; [auto | left; right; exists z; auto | right; exists x', z; auto].
Qed.

Lemma tuple_fold2_NoDup (g : nat -> list (list nat)) (f : nat -> list nat -> list nat) l s : NoDup s ->
  NoDup (fold_left (fun r x => fold_left (fun r z => tuple_add r (f x z)) (g x) r) l s).
Proof. revert s; induction l as [|x l IH]; intros s H; cbn [fold_left]; [exact H|]. apply IH, tuple_fold_NoDup, H. Qed.

Lemma sum_perm a b : Permutation a b -> list_sum_nat a = list_sum_nat b.
Proof. unfold list_sum_nat. induction 1; cbn [fold_right]; lia. Qed.

Lemma integer_partitions_fuel_spec fuel n p : 1 <= n -> n < fuel -> In p (integer_partitions_fuel fuel n) <-> partition_of n p.
Proof.
  revert n p; induction fuel as [|fuel IH]; intros n p Hn Hf; [lia|]. cbn [integer_partitions_fuel].
  rewrite (tuple_fold2_In (fun x => integer_partitions_fuel fuel (n - x)) (fun x y => sort_nat (x :: y))). split.
  - intros [[<-|[]]|[x [y [Hx [Hy ->]]]]].
    + split; [repeat constructor|]. split; [intros x [<-|[]]; exact Hn | cbn; lia].
    + apply range2_In in Hx. apply IH in Hy as [_ [H2 H3]]; [|lia|lia].
      split; [apply sort_nat_sorted_le|]. split.
      * intros z Hz. apply sort_nat_In in Hz as [<-|Hz]; [lia | apply H2; exact Hz].
      * rewrite <- (sum_perm _ _ (sort_nat_perm (x :: y))). change (list_sum_nat (x :: y)) with (x + list_sum_nat y). lia.
  - intros [H1 [H2 H3]]. destruct p as [|a [|b q]].
    + cbn in H3. lia.
    + left. left. cbn in H3. f_equal. lia.
    + right. exists a, (b :: q). assert (Ha : 1 <= a) by (apply H2; left; reflexivity).
      assert (Hb : 1 <= b) by (apply H2; right; left; reflexivity).
      change (list_sum_nat (a :: b :: q)) with (a + (b + list_sum_nat q)) in H3.
      split; [apply range2_In; lia|]. split.
      * apply IH; [lia | lia |]. split; [inversion_clear H1; assumption|]. split; [intros x Hx; apply H2; right; exact Hx|].
        change (list_sum_nat (b :: q)) with (b + list_sum_nat q). lia.
      * symmetry. apply sort_nat_id. exact H1.
Qed.

Lemma find_integer_partitions_spec n : 1 <= n ->
  NoDup (find_integer_partitions n) /\ forall p, In p (find_integer_partitions n) <-> partition_of n p.
Proof.
  intro Hn. split.
  - unfold find_integer_partitions. cbn [integer_partitions_fuel].
    apply (tuple_fold2_NoDup (fun x => integer_partitions_fuel n (n - x)) (fun x y => sort_nat (x :: y))). repeat constructor. intros [].
  - intro p. apply integer_partitions_fuel_spec; lia.
Qed.
