(** Parameter search of the experiments (C183). *)
From Coq Require Import Lra Lia.
From Verif.Model Require Import Base Ext GridSearch.
From Verif.Spec Require Import GridSearchSpec.
From Verif.Proofs Require Import ListFacts KernelFacts.
Open Scope nat_scope.
Open Scope list_scope.

Lemma egtb_trans x y z : egtb x y = true -> egtb y z = true -> egtb x z = true.
Proof.
  destruct x, y, z; cbn; try discriminate; auto. rewrite !Rltb_true. lra.
Qed.
Lemma egtb_asym x y : egtb x y = true -> egtb y x = false.
Proof. destruct x, y; cbn; try discriminate; auto. intros H. apply Rltb_true in H. apply Rltb_false. lra. Qed.
Lemma egtb_neg x y z : egtb x y = false -> x <> NaN -> y <> NaN -> egtb z y = true -> egtb z x = true.
Proof.
  destruct x, y, z; cbn; intros H A B; try congruence; auto. apply Rltb_false in H. rewrite !Rltb_true. lra.
Qed.
Lemma egtb_refl x : egtb x x = false.
Proof. destruct x; cbn; auto. apply Rltb_false. lra. Qed.

Section Grid.
  Context {count rate tag G : Type}.
  Notation entry := (entry count rate).
  Notation score := (e_score count rate).

  Lemma fold_best (l : list entry) (a : entry) : score a <> NaN ->
    first_best (a :: l) (fold_left (fun best e => if egtb (score e) (score best) then e else best) l a).
  Proof.
    induction l as [|x l IH] using rev_ind; intros Ha.
    - exists 0. split; [reflexivity|]. split; [exact Ha|]. intros [|k] e H; simpl in H; [|destruct k; discriminate]. injection H as <-. split; [apply egtb_refl|lia].
    - rewrite fold_left_app. cbn [fold_left]. destruct (IH Ha) as (k & Hk & Hn & HB). clear IH. set (b := fold_left _ l a) in *.
      assert (HkL : k < length (a :: l)) by (apply nth_error_Some; congruence).
      assert (Happ : forall k' e', nth_error (a :: l ++ [x]) k' = Some e' -> (k' < length (a :: l) /\ nth_error (a :: l) k' = Some e') \/ (k' = length (a :: l) /\ e' = x)).
      { intros k' e' H. change (a :: l ++ [x]) with ((a :: l) ++ [x]) in H. destruct (Nat.lt_ge_cases k' (length (a :: l))) as [HL|HL].
        - left. rewrite nth_error_app1 in H by exact HL. auto.
        - right. rewrite nth_error_app2 in H by exact HL. destruct (k' - length (a :: l)) as [|d] eqn:E; simpl in H; [injection H as ->; split; [lia|auto]|destruct d; discriminate]. }
      destruct (egtb (score x) (score b)) eqn:E.
      + exists (length (a :: l)). split; [change (a :: l ++ [x]) with ((a :: l) ++ [x]); rewrite nth_error_app2, Nat.sub_diag by lia; reflexivity|].
        split; [intros Q; rewrite Q in E; discriminate|]. intros k' e' H. destruct (Happ k' e' H) as [[HL H']|[-> ->]].
        * destruct (HB k' e' H') as [H1 _].
          assert (HE : score e' = NaN \/ egtb (score x) (score e') = true).
          { destruct (score e') eqn:Q; auto; right; (eapply egtb_neg; [exact H1| |exact Hn|exact E]; discriminate). }
          split; [|intros _; exact HE]. destruct HE as [->|HE]; [reflexivity|apply egtb_asym, HE].
        * split; [apply egtb_refl|lia].
      + exists k. split; [change (a :: l ++ [x]) with ((a :: l) ++ [x]); rewrite nth_error_app1 by lia; exact Hk|].
        split; [exact Hn|]. intros k' e' H. destruct (Happ k' e' H) as [[HL H']|[-> ->]]; [apply HB, H'|]. split; [exact E|lia].
  Qed.
  Lemma fold_nan (l : list entry) (a : entry) : score a = NaN ->
    fold_left (fun best e => if egtb (score e) (score best) then e else best) l a = a.
  Proof. intros Ha. induction l as [|x l IH]; cbn [fold_left]; auto. rewrite Ha. destruct (score x); exact IH. Qed.

  Theorem max_best (a : entry) l e : score a <> NaN -> max_entry _ _ (a :: l) = Ok e -> first_best (a :: l) e.
  Proof. intros Ha H. injection H as <-. apply fold_best, Ha. Qed.
  Theorem max_nan (a : entry) l : score a = NaN -> max_entry _ _ (a :: l) = Ok a.
  Proof. intros Ha. cbn [max_entry]. rewrite fold_nan by auto. reflexivity. Qed.

  (** ** The loops *)
  Lemma each_ok {A} (job : G -> A -> G * result entry) l g g' es : each count rate G job g l = (g', Ok es) ->
    Forall2 (fun a e => exists h h', job h a = (h', Ok e)) l es.
  Proof.
    revert g es. induction l as [|a l IH]; intros g es H; cbn [each] in H; [injection H as _ <-; constructor|].
    destruct (job g a) as [g1 [e|x]] eqn:E; [|discriminate]. destruct (each count rate G job g1 l) as [g2 rs] eqn:E2. injection H as -> H. destruct rs as [es'|x]; [|discriminate].
    injection H as <-. constructor; [exists g, g1; exact E|]. apply (IH g1). exact E2.
  Qed.
  Lemma each_total {A} (job : G -> A -> G * result entry) l g : (forall h a, exists h' e, job h a = (h', Ok e)) -> exists g' es, each count rate G job g l = (g', Ok es).
  Proof.
    intros H. revert g. induction l as [|a l IH]; intros g; cbn [each]; [eauto|]. destruct (H g a) as (g1 & e & ->). destruct (IH g1) as (g2 & es & ->). cbn [bind]. eauto.
  Qed.

  Lemma Forall2_nth_error {A B} (P : A -> B -> Prop) l l' k a : Forall2 P l l' -> nth_error l k = Some a -> exists b, nth_error l' k = Some b /\ P a b.
  Proof. intros H. revert k. induction H as [|x y l l' Hxy _ IH]; intros [|k] Hk; try discriminate; simpl in *; [injection Hk as <-; eauto|auto]. Qed.

  Variable weight_fit : family -> G -> bool -> count -> G * result ext.
  Variable stacking_fit : G -> bool -> count -> rate -> G * result (ext * ext).

  Lemma grid_nth (counts : list count) k n : nth_error counts k = Some n ->
    nth_error (grid count counts) k = Some (true, n) /\ nth_error (grid count counts) (length counts + k) = Some (false, n).
  Proof.
    intros H. assert (k < length counts) by (apply nth_error_Some; congruence). unfold grid. split.
    - rewrite nth_error_app1 by (rewrite map_length; auto). rewrite nth_error_map, H. reflexivity.
    - rewrite nth_error_app2 by (rewrite map_length; lia). rewrite map_length. replace (length counts + k - length counts) with k by lia. rewrite nth_error_map, H. reflexivity.
  Qed.
  Lemma grid_length (counts : list count) : length (grid count counts) = 2 * length counts.
  Proof. unfold grid. rewrite app_length, !map_length. lia. Qed.
  Lemma flat_nth {A B} (l : list A) (rates : list B) k a j q : nth_error l k = Some a -> nth_error rates j = Some q ->
    nth_error (flat_map (fun p => map (pair p) rates) l) (k * length rates + j) = Some (a, q).
  Proof.
    intros H Hj. assert (Hlt : j < length rates) by (apply nth_error_Some; congruence). revert k H. induction l as [|x l IH]; intros [|k] H; try discriminate; cbn [flat_map].
    - injection H as ->. rewrite nth_error_app1 by (rewrite map_length; simpl; lia). simpl. rewrite nth_error_map, Hj. reflexivity.
    - rewrite nth_error_app2 by (rewrite map_length; simpl; lia). rewrite map_length. replace (S k * length rates + j - length rates) with (k * length rates + j) by (simpl; lia). apply IH, H.
  Qed.
  Lemma flat_length {A B} (l : list A) (rates : list B) : length (flat_map (fun p => map (pair p) rates) l) = length l * length rates.
  Proof. induction l as [|x l IH]; cbn [flat_map]; auto. rewrite app_length, map_length, IH. simpl. lia. Qed.

  Theorem weight_ok f g g' counts es : test_weight count rate G weight_fit f data_as_labelled g counts = (g', Ok es) -> weight_grid weight_fit f counts es.
  Proof.
    intros H. apply each_ok in H. split; [rewrite <- (Forall2_len _ _ _ H); apply grid_length|].
    intros k n Hk. destruct (grid_nth counts k n Hk) as [H1 H2].
    split; [destruct (Forall2_nth_error _ _ _ _ _ H H1) as (e & He & h & h' & HJ)|destruct (Forall2_nth_error _ _ _ _ _ H H2) as (e & He & h & h' & HJ)];
      exists e; (split; [exact He|]); unfold data_as_labelled in HJ.
    - destruct (weight_fit f h true n) as [h1 [s|x]] eqn:E; cbn [bind] in HJ; [|discriminate]; injection HJ as _ <-. split; [split; [reflexivity|eauto]|reflexivity].
    - destruct (weight_fit f h false n) as [h1 [s|x]] eqn:E; cbn [bind] in HJ; [|discriminate]; injection HJ as _ <-. split; [split; [reflexivity|eauto]|reflexivity].
  Qed.
  Theorem stacking_ok g g' counts rates es : test_stacking count rate G stacking_fit g counts rates = (g', Ok es) -> stacking_grid stacking_fit counts rates es.
  Proof.
    intros H. apply each_ok in H. split; [rewrite <- (Forall2_len _ _ _ H); unfold grid_rates; rewrite flat_length, grid_length; reflexivity|].
    intros k n j q Hk Hj. destruct (grid_nth counts k n Hk) as [H1 H2].
    apply (flat_nth _ rates _ _ j q) in H1; [|exact Hj]. apply (flat_nth _ rates _ _ j q) in H2; [|exact Hj].
    split; [destruct (Forall2_nth_error _ _ _ _ _ H H1) as (e & He & h & h' & HJ)|destruct (Forall2_nth_error _ _ _ _ _ H H2) as (e & He & h & h' & HJ)]; exists e; (split; [exact He|]); cbv beta iota in HJ.
    - destruct (stacking_fit h true n q) as [h1 [[b s]|x]] eqn:E; cbn [bind] in HJ; [|discriminate]; injection HJ as _ <-. split; [|reflexivity].
      split; [reflexivity|]. split; [reflexivity|]. exists h, h1, b. auto.
    - destruct (stacking_fit h false n q) as [h1 [[b s]|x]] eqn:E; cbn [bind] in HJ; [|discriminate]; injection HJ as _ <-. split; [|reflexivity].
      split; [reflexivity|]. split; [reflexivity|]. exists h, h1, b. auto.
  Qed.
  Lemma weight_length f data g g' counts es : test_weight count rate G weight_fit f data g counts = (g', Ok es) -> length es = 2 * length counts.
  Proof. intros H. apply each_ok in H. rewrite <- (Forall2_len _ _ _ H). apply grid_length. Qed.
  Lemma stacking_length g g' counts rates es : test_stacking count rate G stacking_fit g counts rates = (g', Ok es) -> length es = 2 * length counts * length rates.
  Proof. intros H. apply stacking_ok in H. apply H. Qed.

  Notation tm := (test_models count rate tag G weight_fit stacking_fit).
  Notation tagged t := (map (fun e : entry => (e, t))).

  Theorem search_ok g fs sc rs gc wc t g' fs' :
    tm data_as_labelled g fs sc rs gc wc t = (g', fs', Ok tt) ->
    exists st gf gw b1 b2 b3, stacking_grid stacking_fit sc rs st /\ weight_grid weight_fit GRF gc gf /\ weight_grid weight_fit GWR wc gw /\
      params_file _ _ _ fs' = params_file _ _ _ fs ++ tagged t (st ++ gf ++ gw) /\
      best_file _ _ _ fs' = best_file _ _ _ fs ++ tagged t [b1; b2; b3] /\
      forall es b, In (es, b) [(st, b1); (gf, b2); (gw, b3)] -> exists a l, es = a :: l /\ (score a <> NaN -> first_best es b) /\ (score a = NaN -> b = a).
  Proof.
    unfold test_models. intros H. destruct (test_stacking count rate G stacking_fit g sc rs) as [g1 [st|x]] eqn:E1; [|discriminate].
    destruct (test_weight count rate G weight_fit GRF data_as_labelled g1 gc) as [g2 [gf|x]] eqn:E2; [|discriminate].
    destruct (test_weight count rate G weight_fit GWR data_as_labelled g2 wc) as [g3 [gw|x]] eqn:E3; [|discriminate]. cbv zeta in H. cbn [params_file best_file] in H.
    destruct (max_entry _ _ st) as [b1|x] eqn:M1; [|discriminate]. destruct (max_entry _ _ gf) as [b2|x] eqn:M2; [|discriminate]. destruct (max_entry _ _ gw) as [b3|x] eqn:M3; [|discriminate].
    cbn [bind] in H. injection H as _ <-. exists st, gf, gw, b1, b2, b3.
    split; [apply (stacking_ok g g1), E1|]. split; [apply (weight_ok GRF g1 g2), E2|]. split; [apply (weight_ok GWR g2 g3), E3|]. cbn [params_file best_file].
    split; [rewrite !map_app; reflexivity|]. split; [reflexivity|].
    assert (HB : forall es b, max_entry _ _ es = Ok b -> exists a l, es = a :: l /\ (score a <> NaN -> first_best es b) /\ (score a = NaN -> b = a)).
    { intros [|a l] b Hb; [discriminate|]. exists a, l. split; [reflexivity|]. split; intros Ha; [apply max_best; auto|]. rewrite max_nan in Hb by auto. congruence. }
    intros es b [Q|[Q|[Q|[]]]]; injection Q as <- <-; auto.
  Qed.

  Theorem search_raises data g fs sc rs gc wc t g' fs' x :
    tm data g fs sc rs gc wc t = (g', fs', Raise x) -> sc <> [] -> rs <> [] -> gc <> [] -> wc <> [] -> fs' = fs.
  Proof.
    unfold test_models. intros H H1 H2 H3 H4. destruct (test_stacking count rate G stacking_fit g sc rs) as [g1 [st|e]] eqn:E1; [|congruence].
    destruct (test_weight count rate G weight_fit GRF data g1 gc) as [g2 [gf|e]] eqn:E2; [|congruence].
    destruct (test_weight count rate G weight_fit GWR data g2 wc) as [g3 [gw|e]] eqn:E3; [|congruence]. exfalso.
    apply stacking_length in E1. apply weight_length in E2, E3.
    destruct sc as [|? sc]; [congruence|]. destruct rs as [|? rs]; [congruence|]. destruct gc as [|? gc]; [congruence|]. destruct wc as [|? wc]; [congruence|]. cbn [length] in *.
    destruct st as [|z1 st]; [simpl in E1; lia|]. destruct gf as [|z2 gf]; [simpl in E2; lia|]. destruct gw as [|z3 gw]; [simpl in E3; lia|]. discriminate.
  Qed.

  Theorem search_empty data g fs sc rs gc wc t :
    (forall f h p n, exists h' s, weight_fit f h p n = (h', Ok s)) -> (forall h p n q, exists h' s, stacking_fit h p n q = (h', Ok s)) ->
    sc = [] \/ rs = [] \/ gc = [] \/ wc = [] ->
    exists g' fs' ls, tm data g fs sc rs gc wc t = (g', fs', Raise ValueError) /\
      params_file _ _ _ fs' = params_file _ _ _ fs ++ ls /\ length ls = 2 * length sc * length rs + 2 * length gc + 2 * length wc /\ best_file _ _ _ fs' = best_file _ _ _ fs.
  Proof.
    intros HW HS HE. unfold test_models.
    destruct (test_stacking count rate G stacking_fit g sc rs) as [g1 st] eqn:E1.
    assert (T1 : exists es, st = Ok es).
    { unfold test_stacking in E1. match type of E1 with each _ _ _ ?job _ ?l = _ => destruct (each_total job l g) as (h & es & Q) end; [|rewrite Q in E1; injection E1 as _ <-; eauto].
      intros h [[p n] q]. destruct (HS h p n q) as (h' & [b s] & ->). cbn [bind]. eauto. }
    destruct T1 as (st' & ->). rename st' into st.
    assert (TW : forall f h l, exists h' es, test_weight count rate G weight_fit f data h l = (h', Ok es)).
    { intros f h l. apply each_total. intros h1 [p n]. destruct (HW f h1 (data p) n) as (h' & s & ->). cbn [bind]. eauto. }
    destruct (TW GRF g1 gc) as (g2 & gf & E2). destruct (TW GWR g2 wc) as (g3 & gw & E3). rewrite E2, E3. cbv zeta. cbn [params_file best_file].
    apply stacking_length in E1. apply weight_length in E2, E3.
    assert (HR : (a <- max_entry _ _ st ;; b <- max_entry _ _ gf ;; c <- max_entry _ _ gw ;; Ok [a; b; c]) = Raise ValueError).
    { destruct st as [|s0 st]; [reflexivity|]. destruct gf as [|f0 gf]; [reflexivity|]. destruct gw as [|w0 gw]; [reflexivity|]. exfalso.
      destruct HE as [->|[->|[->| ->]]]; simpl in E1, E2, E3; try lia. }
    rewrite HR. exists g3. eexists. exists (tagged t (st ++ gf ++ gw)). split; [reflexivity|]. cbn [params_file best_file]. split; [rewrite !map_app; reflexivity|]. split; [|reflexivity].
    rewrite map_length, !app_length. lia.
  Qed.
End Grid.

(** The script that fits the same data in both branches. *)
Section DataSize.
  Context {count rate tag G : Type}.

  Lemma each_ext {A} (job job' : G -> A -> G * result (entry count rate)) l g : (forall h a, job h a = job' h a) -> each count rate G job g l = each count rate G job' g l.
  Proof. intros H. revert g. induction l as [|a l IH]; intros g; cbn [each]; auto. rewrite H. destruct (job' g a) as [g1 [e|x]]; auto. rewrite IH. reflexivity. Qed.

  Theorem always_plus weight_fit weight_fit' stacking_fit g fs sc rs gc wc (t : tag) :
    (forall f (h : G) (n : count), weight_fit f h true n = weight_fit' f h true n) ->
    test_models count rate tag G weight_fit stacking_fit data_always_plus g fs sc rs gc wc t =
    test_models count rate tag G weight_fit' stacking_fit data_always_plus g fs sc rs gc wc t.
  Proof.
    intros H. assert (HW : forall f h l, test_weight count rate G weight_fit f data_always_plus h l = test_weight count rate G weight_fit' f data_always_plus h l).
    { intros f h l. apply each_ext. intros h1 [p n]. unfold data_always_plus. rewrite H. reflexivity. }
    unfold test_models. destruct (test_stacking count rate G stacking_fit g sc rs) as [g1 [st|e]]; auto. rewrite HW.
    destruct (test_weight count rate G weight_fit' GRF data_always_plus g1 gc) as [g2 [gf|e]]; auto. rewrite HW. reflexivity.
  Qed.

  Theorem same_scores weight_fit (h : count -> ext) f g g' counts es :
    (forall (g : G) n g1 r, weight_fit f g true n = (g1, r) -> r = Ok (h n)) ->
    test_weight count rate G weight_fit f data_always_plus g counts = (g', Ok es) ->
    forall k, k < length counts -> exists e e', nth_error es k = Some e /\ nth_error es (length counts + k) = Some e' /\
      e_plus _ _ e = true /\ e_plus _ _ e' = false /\ e_score _ _ e = e_score _ _ e'.
  Proof.
    intros HD H k Hk. apply each_ok in H. destruct (nth_error counts k) as [n|] eqn:En; [|apply nth_error_None in En; lia].
    destruct (grid_nth counts k n En) as [H1 H2]. destruct (Forall2_nth_error _ _ _ _ _ H H1) as (e & He & a1 & a2 & HJ). destruct (Forall2_nth_error _ _ _ _ _ H H2) as (e' & He' & b1 & b2 & HJ').
    exists e, e'. split; [exact He|]. split; [exact He'|]. unfold data_always_plus in HJ, HJ'.
    destruct (weight_fit f a1 true n) as [c1 r1] eqn:Q1. destruct (weight_fit f b1 true n) as [c2 r2] eqn:Q2. rewrite (HD _ _ _ _ Q1) in HJ. rewrite (HD _ _ _ _ Q2) in HJ'.
    cbn [bind] in HJ, HJ'. injection HJ as _ <-. injection HJ' as _ <-. cbn. auto.
  Qed.
End DataSize.

(** For the examples. *)
Definition g_weight (f : family) (g : nat) (plus : bool) (n : nat) : nat * result ext :=
  (S g, if n =? 0 then Raise ValueError else Ok (Fin (if plus then INR n else 0))).
Definition g_stacking (g : nat) (plus : bool) (n q : nat) : nat * result (ext * ext) :=
  (S g, Ok (Fin 0, Fin (if plus then INR (n + q) else 0))).
