(** Soundness of the reasoner's resolution loop. *)
From Coq Require Import ZArith List Bool Lia.
From Verif Require Import Base EncodingModel EncodingProofs CompareModel UnistrModel UnifyModel UnifySpec UnifyProofs UnifyTotal MatchProofs ResolveModel ResolveSpec BuildProofs.
Import ListNotations.
Open Scope Z_scope.
#[local] Ltac Zify.zify_post_hook ::= Z.div_mod_to_equations.

(** ** Clauses in memory *)
Definition small (t : term) : Prop := forall v, occurs v t -> 0 <= v < 4000.
Lemma small_within t : small t <-> within (okV 0) t.
Proof. unfold small, within. split; intros H v O; specialize (H v O); [apply okV_in; lia|]. apply okV_in in H; lia. Qed.
Definition lok (q : bool * term) : Prop := isTF (snd q) /\ small (snd q).
Lemma shape_lok ls : shape ls <-> Forall lok ls.
Proof. unfold shape. split; apply Forall_impl; intros [s t]; unfold lok; cbn [snd]; intros (A & B); (split; [|exact B]); [now destruct A as (l & ->)|]. destruct t as [| |l]; try contradiction. now exists l. Qed.
Lemma literals_flat l : literals (flat l) = l.
Proof. induction l as [|[m a] l IH]; [reflexivity|]. cbn [flat flat_map fst snd app literals]. unfold flat in IH. now rewrite IH. Qed.
Lemma lrep_ext c h h' p q : rsub h h' -> lrep c h p q -> lrep c h' p q.
Proof. intros S (A & B). split; [exact A|]. now apply (rep_ext c h). Qed.
Lemma lreps_ext c h h' lits ls : rsub h h' -> Forall2 (lrep c h) lits ls -> Forall2 (lrep c h') lits ls.
Proof. intros S. induction 1; constructor; [now apply (lrep_ext c h)|assumption]. Qed.
(** A clause: literals in memory and as terms. *)
Record clause (c : cfg) (h : heap) (cl : Z) (lits : list (Z * Z)) (ls : list (bool * term)) : Prop := Clause {
  k_lits : clause_lits h cl = Some lits;
  k_rep : Forall2 (lrep c h) lits ls;
  k_lok : Forall lok ls }.
Lemma clause_rec c h cl lits ls : clause c h cl lits ls -> exists fs, h_rec h cl = Some fs.
Proof.
  intros [L R K]. unfold clause_lits in L. destruct (h_rule h cl); [destruct (h_rec h cl) as [fs|]; [now exists fs|discriminate]|]. injection L as <-. inversion R as [|p q l l' (_ & Rp) R']; subst. pose proof (Forall_inv K) as (T & _). cbn [snd] in *.
  destruct (snd q) as [| |ts] eqn:Eq; try contradiction. inversion Rp; subst. unfold record, encode_datarec_offset, decode_datarec_offset in *. cbn [gof g_rec] in *. now exists fs.
Qed.
Lemma clause_ext c h h' cl lits ls : hwf h -> hext h h' -> clause c h cl lits ls -> clause c h' cl lits ls.
Proof.
  intros W X K. destruct (clause_rec _ _ _ _ _ K) as (fs & Rc). destruct K as [L R O]. constructor; [|apply (lreps_ext c h); [now apply hext_rsub|exact R]|exact O].
  destruct W as (_ & _ & W). destruct (W cl fs Rc) as ((_ & B) & _). destruct X as (_ & X). destruct (X cl B) as (E1 & E2). unfold clause_lits in *. now rewrite E1, E2.
Qed.
Lemma Forall2_in {A B} (P : A -> B -> Prop) l k a : Forall2 P l k -> In a l -> exists b, In (a, b) (combine l k) /\ In b k /\ P a b.
Proof. induction 1 as [|x y l k H F IH]; [easy|]. intros [->|I]; [exists y; split; [now left|split; [now left|exact H]]|]. destruct (IH I) as (b & I1 & I2 & Pb). exists b. split; [now right|]. split; [now right|exact Pb]. Qed.
Lemma Forall2_combine {A B} (P : A -> B -> Prop) l k a b : Forall2 P l k -> In (a, b) (combine l k) -> In a l /\ In b k /\ P a b.
Proof. induction 1 as [|x y l k H F IH]; [easy|]. cbn [combine]. intros [E|I]; [injection E as <- <-; split; [now left|split; [now left|exact H]]|]. destruct (IH I) as (I1 & I2 & Pb). split; [now right|]. split; [now right|exact Pb]. Qed.
Lemma Forall2_in_r {A B} (P : A -> B -> Prop) l k b : Forall2 P l k -> In b k -> exists a, In (a, b) (combine l k).
Proof. induction 1 as [|x y l k H F IH]; [easy|]. intros [->|I]; [exists x; now left|]. destruct (IH I) as (a & Ia). exists a. now right. Qed.

(** ** Clearing *)
Definition clean (st : ust) : Prop := (forall v, u_vb st v = UNASSIGNED) /\ u_stk st = [].
Lemma cov_clear st : cov st -> clean (wr_clear_varstack st).
Proof.
  intros C. split; [|reflexivity]. unfold wr_clear_varstack. cbn [u_vb]. unfold cov in C. revert C. generalize (u_vb st). induction (u_stk st) as [|a l IH]; intros vb H v; cbn [fold_left].
  - destruct (Z.eq_dec (vb v) UNASSIGNED) as [E|E]; [exact E|]. now contradiction (H v E).
  - apply IH. intros w N. unfold upd in N. destruct (Z.eqb_spec w a) as [Ew|D]; [now contradiction N|]. destruct (H w N) as [Ew|I]; [congruence|exact I].
Qed.
Lemma clean_cov st : clean st -> cov st.
Proof. intros (U & _) v N. now contradiction (N (U v)). Qed.
Lemma clear_in : forall l r vb, (forall v, vb v <> UNASSIGNED -> In v (l ++ r)) -> forall v, fold_left (fun vb v => upd vb v UNASSIGNED) l vb v <> UNASSIGNED -> In v r.
Proof.
  induction l as [|a l IH]; intros r vb H; cbn [fold_left]; [exact H|]. apply IH. intros w N. unfold upd in N. destruct (Z.eqb_spec w a) as [Ew|D]; [now contradiction N|]. destruct (H w N) as [Ew|I]; [congruence|exact I].
Qed.
Lemma cov_topslice st k : cov st -> cov (wr_clear_varstack_topslice st k).
Proof. unfold wr_clear_varstack_topslice, cov. cbn [u_vb u_stk]. intros C. apply clear_in. now rewrite firstn_skipn. Qed.
Lemma fold_cov f l : (forall st a b st' r, cov st -> f st a b = Some (st', r) -> cov st') -> forall st st' r, cov st -> fold_pairs f st l = Some (st', r) -> cov st'.
Proof.
  intros F. induction l as [|[a b] l IH]; intros st st' r C; cbn [fold_pairs]; [intros E; now injection E as <- <-|]. destruct (f st a b) as [[s1 r1]|] eqn:E1; [|discriminate]. pose proof (F _ _ _ _ _ C E1) as C1. destruct r1; [now apply IH|]. intros E. now injection E as <- <-.
Qed.
Lemma match_cov g : forall n st x y st' r, cov st -> wr_match_term_aux n g true st x y = Some (st', r) -> cov st'.
Proof.
  induction n as [|n IH]; intros st x y st' r C; cbn [wr_match_term_aux]; [discriminate|].
  assert (RC : forall st' r, (if negb (isdatarec y) then Some (st, false) else match record g x, record g y with Some xs, Some ys => match pairs g xs ys with None => Some (st, false) | Some l => fold_pairs (wr_match_term_aux n g true) st l end | _, _ => None end) = Some (st', r) -> cov st').
  { intros s1 r1. destruct (negb (isdatarec y)); [intros E; now injection E as <- <-|]. destruct (record g x) as [xs|]; [|discriminate]. destruct (record g y) as [ys|]; [|discriminate]. destruct (pairs g xs ys) as [l|]; [|intros E; now injection E as <- <-]. now apply fold_cov. }
  destruct (isvar x).
  - destruct (u_vb st (decode_var x) =? UNASSIGNED); [intros E; injection E as <- <-; now apply cov_set|]. destruct (WR_EQUAL_TERM _ _ _ _ _); [|discriminate]. intros E. now injection E as <- <-.
  - destruct (isdatarec x); cbn [negb]; [apply RC|]. destruct (WR_EQUAL_TERM _ _ _ _ _) as [[]|]; [|apply RC|discriminate]. intros E. now injection E as <- <-.
Qed.
Lemma subs_aux_cov n g : forall ls1 ls2 used st st' r, cov st -> wr_subsume_cl_aux n g ls1 ls2 used st = Some (st', r) -> cov st'.
Proof.
  induction ls1 as [|[m1 a1] r1 IH]; intros ls2 used st st' r C; cbn [wr_subsume_cl_aux]; [intros E; now injection E as <- <-|].
  generalize (combine (seq 0 (length ls2)) ls2). intros l2. revert st C. induction l2 as [|[i [m2 a2]] l2 IHl]; intros st C; [intros E; now injection E as <- <-|].
  destruct (nth i used true || negpol m1 m2); [now apply IHl|]. destruct (wr_match_term_aux n g true st a1 a2) as [[s1 []]|] eqn:E1; [| |discriminate]; pose proof (match_cov g n _ _ _ _ _ C E1) as C1.
  - assert (X : forall s2 b2, (match r1 with [] => Some (s1, true) | _ => wr_subsume_cl_aux n g r1 ls2 (set_nth i used) s1 end) = Some (s2, b2) -> cov s2).
    { intros s2 b2. destruct r1 as [|p r1]; [intros E; now injection E as <- <-|]. now apply IH. }
    destruct (match r1 with [] => Some (s1, true) | _ => wr_subsume_cl_aux n g r1 ls2 (set_nth i used) s1 end) as [[s2 []]|]; [| |discriminate]; pose proof (X _ _ eq_refl) as C2.
    + intros E. now injection E as <- <-.
    + destruct (_ =? _)%nat; [intros E; injection E as <- <-; now apply cov_topslice|]. apply IHl. now apply cov_topslice.
  - apply IHl. now apply cov_topslice.
Qed.
Lemma unit_clean n g m1 a1 : forall ls2 st st' r, clean st -> unit_loop n g m1 a1 ls2 st = Some (st', r) -> clean st'.
Proof.
  induction ls2 as [|[m2 a2] ls2 IH]; intros st st' r C; cbn [unit_loop]; [intros E; now injection E as <- <-|]. destruct (negpol m1 m2); [now apply IH|].
  destruct (wr_match_term_aux n g true st a1 a2) as [[s1 []]|] eqn:E1; [| |discriminate]; pose proof (cov_clear _ (match_cov g n _ _ _ _ _ (clean_cov _ C) E1)) as C1; [intros E; now injection E as <- <-|]. now apply IH.
Qed.
Lemma subsume_clean n c h st cl1 cl2 st' r : clean st -> wr_subsume_cl n c h st cl1 cl2 = Some (st', r) -> clean st'.
Proof.
  intros C. unfold wr_subsume_cl. destruct (clause_lits h cl1) as [ls1|]; [|discriminate]. destruct (clause_lits h cl2) as [ls2|]; [|discriminate]. destruct (h_rule h cl1); cbn [negb].
  - destruct (h_rule h cl2); cbn [negb].
    + assert (X : forall st' r, (if (length ls2 <? length ls1)%nat then Some (st, false) else match wr_subsume_cl_aux n (gof c h) ls1 ls2 (map (fun _ => false) ls2) st with None => None | Some (st, b) => Some (wr_clear_varstack st, b) end) = Some (st', r) -> clean st').
      { intros s1 r1. destruct (length ls2 <? length ls1)%nat; [intros E; now injection E as <- <-|]. destruct (wr_subsume_cl_aux _ _ _ _ _ _) as [[s2 b2]|] eqn:E2; [|discriminate]. intros E. injection E as <- <-. apply cov_clear. now apply (subs_aux_cov _ _ _ _ _ _ _ _ (clean_cov _ C) E2). }
      destruct ls1 as [|[m1 a1] [|p ls1]]; [apply X|now apply unit_clean|apply X].
    + destruct ls1 as [|[m1 a1] [|p ls1]]; [discriminate| |intros E; now injection E as <- <-]. destruct (is_neg m1); [intros E; now injection E as <- <-|].
      destruct (wr_match_term_aux _ _ _ _ _ _) as [[s1 b1]|] eqn:E1; [|discriminate]. intros E. injection E as <- <-. apply cov_clear. now apply (match_cov _ _ _ _ _ _ _ (clean_cov _ C) E1).
  - destruct (h_rule h cl2); cbn [negb]; [destruct (fact_loop _ _ _ _)|destruct (wr_equal_term _ _ _ _ _)]; try discriminate; intros E; now injection E as <- <-.
Qed.
Lemma subsumed_clean n c h given : forall active st st' r, clean st -> wr_given_cl_subsumed n c h st active given = Some (st', r) -> clean st'.
Proof.
  induction active as [|cl active IH]; intros st st' r C; cbn [wr_given_cl_subsumed]; [intros E; now injection E as <- <-|]. destruct (wr_subsume_cl n c h st cl given) as [[s1 []]|] eqn:E1; [| |discriminate]; pose proof (subsume_clean _ _ _ _ _ _ _ _ C E1) as C1; [intros E; now injection E as <- <-|]. now apply IH.
Qed.

Section Sound.
Variable c : cfg.
Hypothesis Sd : std (c_g c).
Variable M : struc.
Definition good (h : heap) (cl : Z) : Prop := exists lits ls, clause c h cl lits ls /\ valid M ls.
Definition gooda (h : heap) (cl : Z) : Prop := exists lits ls, clause c h cl lits ls /\ valid M ls /\ NoDup (map snd lits).
Lemma gooda_good h cl : gooda h cl -> good h cl.
Proof. intros (lits & ls & K & V & _). now exists lits, ls. Qed.
Lemma good_ext h h' cl : hwf h -> hext h h' -> good h cl -> good h' cl.
Proof. intros W X (lits & ls & K & V). exists lits, ls. split; [now apply (clause_ext c h)|exact V]. Qed.
Lemma gooda_ext h h' cl : hwf h -> hext h h' -> gooda h cl -> gooda h' cl.
Proof. intros W X (lits & ls & K & V). exists lits, ls. split; [now apply (clause_ext c h)|exact V]. Qed.
Lemma valid_inst s ls : valid M ls -> valid M (map (fun q => (fst q, inst s (snd q))) ls).
Proof.
  intros V v. specialize (V (fun x => ev M v (s x))). apply existsb_exists in V. destruct V as (q & I & T). apply existsb_exists. exists (fst q, inst s (snd q)). split; [now apply (in_map (fun q => (fst q, inst s (snd q))))|].
  unfold lit_true in *. cbn [fst snd]. now rewrite ev_inst.
Qed.
(** The substitution at the end of building. *)
Definition ssub (bank : Z) (th : Z -> term) (v : Z) : term := inst (ren bank) (th v).
Lemma ssub_inst bank th t : inst (ssub bank th) t = inst (ren bank) (inst th t).
Proof. symmetry. apply inst_inst. Qed.
Definition fin (b : bst) (th : Z -> term) : Prop := solves (gof c (b_h b)) (u_vb (b_u b)) th /\ forall w, 4000 <= w -> th w = TV w.
Lemma fin_ex b : binv c b -> exists th, fin b th.
Proof. intros [_ (th & rk & I) H _ _]. exists th. split; [apply (i_sol _ _ _ _ I)|]. intros w L. apply (i_free _ _ _ _ I). now apply H. Qed.
Lemma fin_post b b' th : bpost c b b' -> fin b' th -> fin b th.
Proof. intros P (S & H). split; [now apply (q_sol _ _ _ P)|exact H]. Qed.
Lemma built_fin bank b y t th : binv c b -> 0 <= bank <= 3 -> fin b th -> built c bank b y t -> rep (gof c (b_h b)) y (inst (ssub bank th) t) /\ small (inst (ssub bank th) t).
Proof.
  intros I Bk (S & H) B. rewrite ssub_inst. destruct (B th S H) as (R & O). split; [exact R|]. intros v Ov. apply occurs_inst in Ov. destruct Ov as (w & Ow & Ov). unfold ren in Ov. cbn [occurs] in Ov. specialize (O w Ow). pose proof (n_vc c b I). lia.
Qed.
Lemma isTF_inst s t : isTF t -> isTF (inst s t).
Proof. now destruct t. Qed.

(** Reasoner/build.c wr_build_calc_cl. *)
Lemma combine_fst {A B} (l : list (A * B)) : combine (map fst l) (map snd l) = l.
Proof. induction l as [|[a b] l IH]; [reflexivity|]. cbn [map combine fst snd]. now rewrite IH. Qed.
Lemma map_snd_combine {A B} (l : list A) (k : list B) : length l = length k -> map snd (combine l k) = k.
Proof. revert k. induction l as [|a l IH]; intros [|b k] L; try easy. cbn [combine map snd]. f_equal. apply IH. now injection L. Qed.
Lemma lits_reps g h lits ls : g = gof c h -> Forall2 (lrep c h) lits ls -> reps g (map snd lits) (map snd ls).
Proof. intros ->. induction 1 as [|p q l k (_ & R) F IH]; constructor; [exact R|exact IH]. Qed.
Lemma new_lits h metas (lits : list (Z * Z)) ls ys s : metas = map fst lits -> Forall2 (lrep c h) lits ls -> forall h', Forall2 (fun y t => rep (gof c h') y (inst s t)) ys (map snd ls) ->
  Forall2 (lrep c h') (combine metas ys) (map (fun q => (fst q, inst s (snd q))) ls) /\ length metas = length ys.
Proof.
  intros -> F h'. revert ys. induction F as [|p q l k (Sg & _) F IH]; intros ys B; cbn [map] in *; inversion B as [|y t ys' ts' By Bs]; subst; cbn [combine length]; [split; [constructor|reflexivity]|].
  destruct (IH ys' Bs) as (A1 & A2). split; [|now rewrite A2]. constructor; [|exact A1]. split; [exact Sg|exact By].
Qed.
Lemma cl_build n bank b cl b' r : binv c b -> b_vc b = 0 -> 0 <= bank <= 3 -> good (b_h b) cl -> wr_build_calc_cl n c bank b cl = Some (b', r) ->
  bpost c b b' /\ forall y, r = Some y -> gooda (b_h b') y.
Proof.
  intros I V0 Bk (lits & ls & K & Va). unfold wr_build_calc_cl. assert (Eb : Bst (b_h b) (b_u b) 0 = b) by (destruct b; cbn in *; now subst). rewrite Eb. cbn [b_h]. pose proof K as [L R O].
  pose proof (build_ok c false bank Sd ltac:(lia) n) as FO.
  destruct (h_rule (b_h b) cl) eqn:Ru; cbn [negb].
  - (* rule *)
    assert (Ls : clause_lits (b_h b) cl = Some lits) by exact L. rewrite Ls. destruct (h_rec (b_h b) cl) as [fs|] eqn:Rc; [|discriminate].
    destruct (wr_alloc (b_h b) (3 + Z.of_nat (length fs))) as [[h1 a]|] eqn:A.
    2:{ intros E. injection E as <- <-. split; [now apply bpost_fail|discriminate]. }
    destruct (alloc_ok (b_h b) (3 + Z.of_nat (length fs)) h1 a (n_wf c b I) ltac:(lia) A) as (W1 & X1 & Ea & Nx & Rr & Rl). clear A.
    pose proof (bpost_heap c b h1 I W1 X1) as P1. rewrite V0 in P1. set (b1 := Bst h1 (b_u b) 0) in *. pose proof (q_inv _ _ _ P1) as I1.
    assert (Rs1 : reps (gof c (b_h b1)) (map snd lits) (map snd ls)) by (apply (lits_reps _ (b_h b1)); [reflexivity|]; apply (lreps_ext c (b_h b)); [apply hext_rsub; [apply (n_wf c b I)|exact X1]|exact R]).
    assert (Ws1 : Forall (within (okV (b_vc b1))) (map snd ls)) by (apply Forall_map; apply (Forall_impl _ (fun q Hq => proj1 (small_within _) (proj2 Hq)) O)).
    assert (Tf : Forall isTF (map snd ls)) by (apply Forall_map; apply (Forall_impl _ (fun q Hq => proj1 Hq) O)).
    destruct (build_all _ _ b1 _) as [[b2 r2]|] eqn:E2; [|discriminate].
    destruct (build_all_ok c bank (fun _ => false) _ (fun z => eq_refl) FO _ _ b1 b2 r2 I1 Rs1 Ws1 E2) as (P2 & Y2). pose proof (bpost_trans c _ _ _ P1 P2) as P.
    destruct r2 as [ys|]; [|intros E; injection E as <- <-; split; [exact P|discriminate]].
    remember (firstn 1 fs ++ flat (combine (map fst lits) ys)) as ns eqn:En. intros E. injection E as <- <-.
    destruct (Y2 ys eq_refl) as (B2 & T2). destruct (T2 Tf) as (_ & ND). pose proof (q_inv _ _ _ P2) as I2.
    destruct (write_ok (b_h b) h1 (b_h b2) a ns true (n_wf c b I) (n_wf c b2 I2) Ea X1 ltac:(lia) Rr (q_ext _ _ _ P2)) as (W3 & X3 & S3).
    assert (SE : forall th, solves (gof c (b_h (b_write b2 a ns true))) (u_vb (b_u b2)) th <-> solves (gof c (b_h b2)) (u_vb (b_u b2)) th).
    { intros th. symmetry. apply solves_ext; [exact S3|now apply n_bound]. }
    split.
    + constructor; [now apply binv_heap|exact X3| |exact (q_cov _ _ _ P)|exact (q_vc _ _ _ P)]. intros th So. apply (q_sol _ _ _ P). now apply SE.
    + intros y E. injection E as <-. destruct (fin_ex b2 I2) as (th & Fi).
      assert (B3 : Forall2 (fun y t => rep (gof c (b_h b2)) y (inst (ssub bank th) t)) ys (map snd ls)).
      { clear - B2 Fi I2 Bk. induction B2; constructor; [|assumption]. now apply (built_fin bank b2 x y th I2 Bk Fi). }
      assert (B4 : Forall (fun t => small (inst (ssub bank th) t)) (map snd ls)).
      { clear - B2 Fi I2 Bk. induction B2; constructor; [|assumption]. now apply (built_fin bank b2 x y th I2 Bk Fi). }
      destruct (new_lits (b_h b) (map fst lits) lits ls ys (ssub bank th) eq_refl R (b_h b2) B3) as (N1 & N2).
      exists (combine (map fst lits) ys), (map (fun q => (fst q, inst (ssub bank th) (snd q))) ls). split; [constructor|split].
      * unfold clause_lits. cbn [b_write b_h h_write h_rule h_rec]. rewrite Z.eqb_refl. f_equal. rewrite En.
        assert (Sk : fs <> [] \/ lits = []). { unfold clause_lits in L. rewrite Ru, Rc in L. injection L as <-. destruct fs; [now right|now left; discriminate]. }
        destruct fs as [|f0 fs]; [destruct Sk as [Sk| ->]; [contradiction|reflexivity]|]. cbn [firstn app skipn]. apply literals_flat.
      * apply (lreps_ext c (b_h b2)); [exact S3|exact N1].
      * apply Forall_map. rewrite Forall_map in B4, Tf. rewrite Forall_forall in *. intros q Hq. split; cbn [snd]; [now apply isTF_inst, Tf|now apply B4].
      * now apply valid_inst.
      * now rewrite map_snd_combine.
  - (* fact *)
    unfold clause_lits in L. rewrite Ru in L. injection L as <-. inversion R as [|p q l k (Sg & Rq) R']; subst. inversion R'; subst. cbn [fst snd] in *. pose proof (Forall_inv O) as (T & Sm).
    destruct (wr_build_calc_term n c false true bank b (encode_datarec_offset cl)) as [[b2 y]|] eqn:E2; [|discriminate].
    assert (Wq : within (okV (b_vc b)) (snd q)) by (rewrite V0; now apply small_within).
    destruct (FO b _ _ b2 y I Rq Wq E2) as (P & Y).
    destruct (Z.eqb_spec y WG_ILLEGAL) as [->|Ny]; intros E; injection E as <- <-; (split; [exact P|]); [discriminate|]. intros z E. injection E as <-.
    destruct (Y Ny) as (B & Tf). destruct (Tf T) as (Dy & Ly & Ruy). pose proof (q_inv _ _ _ P) as I2. destruct (fin_ex b2 I2) as (th & Fi). destruct (built_fin bank b2 y (snd q) th I2 Bk Fi B) as (Ry & Sy).
    unfold decode_datarec_offset, encode_datarec_offset in *. exists [(0, y)], [(fst q, inst (ssub bank th) (snd q))]. split; [constructor|split].
    + unfold clause_lits. now rewrite Ruy, Ru.
    + constructor; [|constructor]. split; [exact Sg|exact Ry].
    + constructor; [|constructor]. split; cbn [snd]; [now apply isTF_inst|exact Sy].
    + apply (valid_inst (ssub bank th) [q] Va).
    + cbn [map]. constructor; [easy|constructor].
Qed.

(** ** The resolution step *)
Lemma nodup_snd (l : list (Z * Z)) p q : NoDup (map snd l) -> In p l -> In q l -> snd p = snd q -> p = q.
Proof.
  induction l as [|a l IH]; [easy|]. cbn [map]. intros N Hp Hq E. inversion N as [|x k Nx Nk]; subst. destruct Hp as [->|Hp], Hq as [->|Hq].
  - reflexivity.
  - contradiction Nx. rewrite E. now apply in_map.
  - contradiction Nx. rewrite <- E. now apply in_map.
  - now apply IH.
Qed.
Definition covers (s : Z -> term) (lits : list (Z * Z)) (ls : list (bool * term)) (cut : Z) (qs : list (bool * term)) : Prop :=
  forall p q, In (p, q) (combine lits ls) -> snd p <> cut -> exists q', In q' qs /\ fst q' = fst q /\ inst s (snd q') = inst s (snd q).
Lemma resolve_sem h xl xs xm xa yl ys ym ya s qs :
  Forall2 (lrep c h) xl xs -> valid M xs -> NoDup (map snd xl) -> In (xm, xa) xl ->
  Forall2 (lrep c h) yl ys -> valid M ys -> NoDup (map snd yl) -> In (ym, ya) yl ->
  is_neg xm <> is_neg ym -> (forall tx ty, rep (gof c h) xa tx -> rep (gof c h) ya ty -> inst s tx = inst s ty) ->
  covers s xl xs xa qs -> covers s yl ys ya qs -> valid M (map (fun q => (fst q, inst s (snd q))) qs).
Proof.
  intros Rx Vx Nx Ix Ry Vy Ny Iy Sg U Cx Cy v. set (v' := fun x => ev M v (s x)).
  assert (G : forall l k a m, Forall2 (lrep c h) l k -> valid M k -> NoDup (map snd l) -> In (m, a) l -> covers s l k a qs ->
     existsb (lit_true M v) (map (fun q => (fst q, inst s (snd q))) qs) = true \/ exists t, rep (gof c h) a t /\ xorb (is_neg m) (s_holds M (ev M v (inst s t))) = true).
  { intros l k a m R V N I C. specialize (V v'). apply existsb_exists in V. destruct V as (q & Iq & T). destruct (Forall2_in_r _ _ _ q R Iq) as (p & Ip). destruct (Forall2_combine _ _ _ _ _ R Ip) as (Jp & _ & (Sp & Rp)). unfold lit_true, v' in T. rewrite <- ev_inst in T.
    destruct (Z.eq_dec (snd p) a) as [E|E].
    - right. assert (Epm : p = (m, a)) by (now apply (nodup_snd l)). subst p. cbn [fst snd] in *. exists (snd q). split; [exact Rp|]. now rewrite Sp.
    - left. destruct (C p q Ip E) as (q' & I' & F' & E'). apply existsb_exists. exists (fst q', inst s (snd q')). split; [now apply (in_map (fun q => (fst q, inst s (snd q))))|]. unfold lit_true. cbn [fst snd]. now rewrite F', E'. }
  destruct (G xl xs xa xm Rx Vx Nx Ix Cx) as [?|(tx & Rtx & Tx)]; [assumption|]. destruct (G yl ys ya ym Ry Vy Ny Iy Cy) as [?|(ty & Rty & Ty)]; [assumption|]. exfalso.
  rewrite (U tx ty Rtx Rty) in Tx. destruct (is_neg xm), (is_neg ym), (s_holds M (ev M v (inst s ty))); try discriminate; now contradiction Sg.
Qed.
Definition accrel (b : bst) (acc : list (Z * Z)) (qs : list (bool * term)) : Prop :=
  Forall2 (fun p q => is_neg (fst p) = fst q /\ isTF (snd q) /\ isdatarec (snd p) = true /\ built c 3 b (snd p) (snd q)) acc qs.
Lemma accrel_mono b b' acc qs : binv c b -> bpost c b b' -> accrel b acc qs -> accrel b' acc qs.
Proof. intros I P. induction 1 as [|p q l k (A & B & C & D) F IH]; constructor; [|exact IH]. split; [exact A|]. split; [exact B|]. split; [exact C|]. now apply (built_mono c 3 b). Qed.
Lemma find_dup_ok n g meta atom acc : find_dup n g meta atom acc = Some (Some true) -> exists p, In p acc /\ wr_equal_term n g true atom (snd p) = Some true /\ is_neg (fst p) = is_neg meta.
Proof.
  induction acc as [|[rm ra] acc IH]; cbn [find_dup]; [discriminate|]. destruct (wr_equal_term n g true atom ra) as [[]|] eqn:E; [|intros H; destruct (IH H) as (p & I & Q); exists p; split; [now right|exact Q]|discriminate].
  intros H. injection H as H. exists (rm, ra). split; [now left|]. split; [exact E|]. cbn [fst]. unfold negpol in H. rewrite negb_involutive in H. apply Z.eqb_eq in H. unfold is_neg. now rewrite H.
Qed.
Lemma aconst_rec y : isdatarec y = true -> y <> ACONST_TRUE /\ y <> ACONST_FALSE.
Proof. intros D. split; intros ->; discriminate. Qed.
Lemma aux_ok n : forall lits ls cut b acc qs b' r, binv c b -> Forall2 (lrep c (b_h b)) lits ls -> Forall lok ls -> accrel b acc qs ->
  wr_process_resolve_result_aux n c b lits cut acc = Some (b', r) ->
  bpost c b b' /\ forall acc', r = Some acc' -> exists qs', accrel b' acc' qs' /\ (exists more, qs' = qs ++ more) /\ forall th, fin b' th -> covers (ssub 3 th) lits ls cut qs'.
Proof.
  induction lits as [|[meta atom] lits IH]; intros ls cut b acc qs b' r I R O A; cbn [wr_process_resolve_result_aux]; inversion R as [|p q l k (Sg & Rq) R']; subst.
  - intros E. injection E as <- <-. split; [now apply bpost_refl|]. intros acc' E. injection E as <-. exists qs. split; [exact A|]. split; [exists []; now rewrite app_nil_r|]. intros th _ p q [].
  - cbn [fst snd] in *. pose proof (Forall_inv O) as (T & Sm). pose proof (Forall_inv_tail O) as O'.
    destruct (Z.eqb_spec atom cut) as [->|Nc].
    { intros E. destruct (IH k cut b acc qs b' r I R' O' A E) as (P & Y). split; [exact P|]. intros acc' Ea. destruct (Y acc' Ea) as (qs' & A' & X & C). exists qs'. split; [exact A'|]. split; [exact X|]. intros th Fi p0 q0 [E0|I0] N0; [injection E0 as <- <-; now contradiction N0|]. now apply (C th Fi p0). }
    destruct (wr_build_calc_term n c true true 3 b atom) as [[b1 na]|] eqn:E1; [|discriminate].
    assert (Wq : within (okV (b_vc b)) (snd q)) by (apply (within_le 0); [pose proof (n_vc c b I); lia|now apply small_within]).
    destruct (build_ok c true 3 Sd ltac:(lia) n b atom (snd q) b1 na I Rq Wq E1) as (P1 & Y1). pose proof (q_inv _ _ _ P1) as I1.
    destruct (Z.eqb_spec na WG_ILLEGAL) as [->|Nn]. { intros E. injection E as <- <-. split; [|discriminate]. now apply (bpost_trans c _ b1); [|apply bpost_fail]. }
    destruct (Y1 Nn) as (B1 & T1). destruct (T1 T) as (D1 & _). destruct (aconst_rec na D1) as (Nt & Nf). destruct (Z.eqb_spec na ACONST_TRUE); [contradiction|]. destruct (Z.eqb_spec na ACONST_FALSE); [contradiction|].
    assert (R1 : Forall2 (lrep c (b_h b1)) lits k) by (apply (lreps_ext c (b_h b)); [apply hext_rsub; [apply (n_wf c b I)|apply (q_ext _ _ _ P1)]|exact R']).
    pose proof (accrel_mono b b1 acc qs I P1 A) as A1.
    destruct (find_dup n (gof c (b_h b1)) meta na acc) as [[[]|]|] eqn:Fd; [| | |discriminate].
    + intros E. destruct (IH k cut b1 acc qs b' r I1 R1 O' A1 E) as (P & Y). split; [now apply (bpost_trans c _ b1)|]. intros acc' Ea. destruct (Y acc' Ea) as (qs' & A' & (more & X) & C). exists qs'. split; [exact A'|]. split; [now exists more|].
      intros th Fi p0 q0 [E0|I0] N0; [|now apply (C th Fi p0)]. injection E0 as <- <-. destruct (find_dup_ok _ _ _ _ _ Fd) as (p1 & J1 & Q1 & S1). destruct (Forall2_in _ _ _ _ A1 J1) as (q1 & _ & Jq & (Sp & _ & _ & Bp)).
      exists q1. split; [rewrite X; apply in_or_app; now left|]. split; [congruence|]. pose proof (fin_post b1 b' th P Fi) as Fi1. destruct (built_fin 3 b1 na (snd q) th I1 ltac:(lia) Fi1 B1) as (Ra & _). destruct (built_fin 3 b1 (snd p1) (snd q1) th I1 ltac:(lia) Fi1 Bp) as (Rb & _).
      symmetry. now apply (proj1 (wr_equal_term_ok _ (wf_gof c (b_h b1) Sd (n_wf c b1 I1)) n na (snd p1) _ _ true Ra Rb Q1)).
    + intros E. injection E as <- <-. split; [exact P1|discriminate].
    + intros E. assert (A2 : accrel b1 (acc ++ [(meta, na)]) (qs ++ [q])) by (apply Forall2_app; [exact A1|]; apply Forall2_cons; [exact (conj Sg (conj T (conj D1 B1)))|apply Forall2_nil]).
      destruct (IH k cut b1 _ _ b' r I1 R1 O' A2 E) as (P & Y). split; [now apply (bpost_trans c _ b1)|]. intros acc' Ea. destruct (Y acc' Ea) as (qs' & A' & (more & X) & C). exists qs'. split; [exact A'|]. split; [exists (q :: more); now rewrite X, <- app_assoc|].
      intros th Fi p0 q0 [E0|I0] N0; [|now apply (C th Fi p0)]. injection E0 as <- <-. exists q. split; [|easy]. rewrite X. apply in_or_app. left. apply in_or_app. right. now left.
Qed.

Lemma result_ok n b rule acc qs b' r : hwf (b_h b) -> Forall2 (lrep c (b_h b)) acc qs -> Forall lok qs -> valid M qs -> (rule = false -> exists meta atom, acc = [(meta, atom)] /\ is_neg meta = false) ->
  build_result n c b rule acc = Some (b', r) -> b_u b' = b_u b /\ hwf (b_h b') /\ hext (b_h b) (b_h b') /\ forall y, r = Some y -> gooda (b_h b') y.
Proof.
  intros W R O V Ru. unfold build_result. assert (Tf : Forall isTF (map snd qs)) by (apply Forall_map; apply (Forall_impl _ (fun q Hq => proj1 Hq) O)). pose proof (copy_ok c 0 Sd n) as CO. destruct rule.
  - destruct (wr_alloc (b_h b) (3 + (1 + 2 * Z.of_nat (length acc)))) as [[h1 a]|] eqn:A.
    2:{ intros E. injection E as <- <-. destruct (fail_ok (b_h b) W). split; [reflexivity|]. split; [assumption|]. now split. }
    destruct (alloc_ok (b_h b) (3 + (1 + 2 * Z.of_nat (length acc))) h1 a W ltac:(lia) A) as (W1 & X1 & Ea & Nx & Rr & Rl). clear A. set (b1 := Bst h1 (b_u b) (b_vc b)) in *.
    assert (Rs1 : reps (gof c (b_h b1)) (map snd acc) (map snd qs)) by (apply (lits_reps _ (b_h b1)); [reflexivity|]; apply (lreps_ext c (b_h b)); [now apply hext_rsub|exact R]).
    destruct (build_all _ _ b1 _) as [[b2 r2]|] eqn:E2; [|discriminate].
    destruct (copy_all_ok c (fun _ => false) _ (fun z (Hz : false = true) => False_ind _ (diff_false_true Hz)) CO _ _ b1 b2 r2 W1 Rs1 E2) as (P2 & Y2). pose proof P2 as (U2 & _ & W2 & X2).
    destruct r2 as [ys|].
    2:{ intros E. injection E as <- <-. destruct (fail_ok (b_h b2) W2) as (W3 & X3). split; [exact U2|]. split; [exact W3|]. split; [|discriminate]. apply (hext_trans _ h1); [exact X1|]. now apply (hext_trans _ (b_h b2)). }
    remember (0 :: flat (combine (map fst acc) ys)) as ns eqn:En. intros E. injection E as <- <-. destruct (Y2 ys eq_refl) as (B2 & T2). destruct (T2 Tf) as (_ & ND).
    destruct (write_ok (b_h b) h1 (b_h b2) a ns true W W2 Ea X1 ltac:(lia) Rr X2) as (W3 & X3 & S3). split; [exact U2|]. split; [exact W3|]. split; [exact X3|]. intros y E. injection E as <-.
    assert (N1 : Forall2 (lrep c (b_h b2)) (combine (map fst acc) ys) qs /\ length (map fst acc) = length ys).
    { clear - R B2. revert ys B2. induction R as [|p q l k (Sg & _) F IH]; intros ys B; cbn [map] in *; inversion B; subst; cbn [combine length]; [split; [constructor|reflexivity]|]. destruct (IH es H3) as (A1 & A2). split; [|now rewrite A2]. constructor; [|exact A1]. now split. }
    destruct N1 as (N1 & N2). exists (combine (map fst acc) ys), qs. split; [constructor|split].
    + unfold clause_lits. cbn [b_write b_h h_write h_rule h_rec]. rewrite Z.eqb_refl, En. cbn [skipn]. f_equal. apply literals_flat.
    + apply (lreps_ext c (b_h b2)); [exact S3|exact N1].
    + exact O.
    + exact V.
    + now rewrite map_snd_combine.
  - destruct (Ru eq_refl) as (meta & atom & -> & Ng). inversion R as [|p q l k (Sg & Rq) R']; subst. inversion R'; subst. cbn [fst snd] in *. pose proof (Forall_inv O) as (T & Sm).
    destruct (wr_build_calc_term n c false false 0 b atom) as [[b2 y]|] eqn:E2; [|discriminate]. destruct (CO b atom (snd q) b2 y W Rq E2) as ((U2 & _ & W2 & X2) & Y).
    destruct (Z.eqb_spec y WG_ILLEGAL) as [->|Ny]. { intros E. injection E as <- <-. destruct (fail_ok (b_h b2) W2) as (W3 & X3). split; [exact U2|]. split; [exact W3|]. split; [|discriminate]. now apply (hext_trans _ (b_h b2)). }
    destruct (Y Ny) as (B & Tf2). destruct (Tf2 T) as (Dy & Ly). unfold decode_datarec_offset. destruct (h_rec (b_h b2) y) as [fs|] eqn:Ry; [|discriminate]. intros E. injection E as <- <-. split; [exact U2|].
    assert (S3 : rsub (b_h b2) (h_write (b_h b2) y fs false)). { intros z gs Hz. unfold h_write. cbn [h_rec]. destruct (Z.eqb_spec z y) as [->|]; [congruence|exact Hz]. }
    split; [|split].
    + destruct W2 as (P2 & A2 & W2). split; [exact P2|]. split; [exact A2|]. intros z gs. cbn [b_write b_h h_write h_rec h_next]. destruct (Z.eqb_spec z y) as [->|]; [intros _; now apply (W2 y fs)|apply W2].
    + destruct X2 as (L2 & X2). split; cbn [b_write b_h h_write h_rec h_next h_rule]; [exact L2|]. intros z Lz. destruct (Z.eqb_spec z y); [lia|]. now apply X2.
    + intros z E. injection E as <-. exists [(0, y)], [q]. split; [constructor|split].
      * unfold clause_lits. cbn [b_write b_h h_write h_rule]. now rewrite Z.eqb_refl.
      * constructor; [|constructor]. split; cbn [fst snd]; [rewrite <- Sg; symmetry; exact Ng|]. apply (rep_ext c (b_h b2)); [exact S3|exact B].
      * exact O.
      * exact V.
      * cbn [map]. constructor; [easy|constructor].
Qed.

(** ** States *)
Definition node_ok (h : heap) (sg : bool) (a cl : Z) : Prop := exists lits ls m, clause c h cl lits ls /\ valid M ls /\ NoDup (map snd lits) /\ In (m, a) lits /\ is_neg m = sg.
Lemma node_ext h h' sg a cl : hwf h -> hext h h' -> node_ok h sg a cl -> node_ok h' sg a cl.
Proof. intros W X (lits & ls & m & K & R). exists lits, ls, m. split; [now apply (clause_ext c h)|exact R]. Qed.
Record base (st : rst) : Prop := Base {
  s_wf : hwf (r_h st);
  s_queue : Forall (good (r_h st)) (r_queue st);
  s_active : Forall (good (r_h st)) (r_active st);
  s_pos : Forall (fun p => node_ok (r_h st) false (fst (snd p)) (snd (snd p))) (r_pos st);
  s_neg : Forall (fun p => node_ok (r_h st) true (fst (snd p)) (snd (snd p))) (r_neg st);
  s_noproof : r_proof st = false }.
Lemma base_with st h u buf : base st -> hwf h -> hext (r_h st) h -> base (with_b st h u buf).
Proof.
  intros [W Q A P N F] W' X. constructor; cbn [with_b r_h r_queue r_active r_pos r_neg r_proof]; try assumption.
  - apply (Forall_impl _ (fun cl => good_ext (r_h st) h cl W X) Q).
  - apply (Forall_impl _ (fun cl => good_ext (r_h st) h cl W X) A).
  - apply (Forall_impl _ (fun p => node_ext (r_h st) h false _ _ W X) P).
  - apply (Forall_impl _ (fun p => node_ext (r_h st) h true _ _ W X) N).
Qed.
Definition SI (st : rst) : Prop := base st /\ clean (r_u st).
Lemma clean_binv h u : hwf h -> clean u -> binv c (Bst h u 0).
Proof.
  intros W (U & _). constructor; cbn [b_h b_u b_vc]; [exact W| |intros v _; apply U|lia|].
  - exists TV, (fun _ => O). now apply inv_empty.
  - intros v t N. now contradiction (N (U v)).
Qed.
Definition recok (rec : rst -> Z -> option rst) : Prop := forall st cl st', SI st -> gooda (r_h st) cl -> rec st cl = Some st' -> SI st' /\ hext (r_h st) (r_h st').
Lemma cleanup_cov b : cov (b_u b) -> cov (cleanupsubst b).
Proof. intros C v. unfold cleanupsubst. cbn [u_vb u_stk]. destruct (_ && _); [easy|apply C]. Qed.
Lemma isrule_false h acc : isrulecl c h acc = Some false -> exists meta atom, acc = [(meta, atom)] /\ is_neg meta = false.
Proof.
  unfold isrulecl. destruct acc as [|[meta atom] [|p acc]]; try discriminate. destruct (isdatarec atom && negb (is_neg meta)) eqn:E; [|discriminate]. intros _. exists meta, atom. split; [reflexivity|]. apply andb_prop in E. now apply negb_true_iff.
Qed.
Lemma single (l : list (Z * Z)) a : In a l -> Z.of_nat (length l) <= 1 -> l = [a].
Proof. destruct l as [|x [|y l]]; cbn [length]; [easy| |lia]. intros [->|[]] _. reflexivity. Qed.
Theorem process_ok n rec st xa xcl ya ycl sg st' :
  recok rec -> base st -> cov (r_u st) -> binv c (Bst (r_h st) (r_u st) 0) -> node_ok (r_h st) sg xa xcl -> node_ok (r_h st) (negb sg) ya ycl ->
  (forall th, solves (gof c (r_h st)) (u_vb (r_u st)) th -> forall tx ty, rep (gof c (r_h st)) xa tx -> rep (gof c (r_h st)) ya ty -> inst th tx = inst th ty) ->
  wr_process_resolve_result n c rec st xa xcl ya ycl = Some st' -> base st' /\ cov (r_u st') /\ hext (r_h st) (r_h st').
Proof.
  intros RO Bs Cv I (xl & xs & xm & Kx & Vx & Nx & Ix & Sx) (yl & ys & ym & Ky & Vy & Ny & Iy & Sy) U. unfold wr_process_resolve_result. rewrite (k_lits _ _ _ _ _ Kx), (k_lits _ _ _ _ _ Ky).
  pose proof (s_wf st Bs) as W. assert (Sg : is_neg xm <> is_neg ym) by (rewrite Sx, Sy; destruct sg; discriminate).
  (* a single literal is cut *)
  assert (TR : forall l k a m s qs, Forall2 (lrep c (r_h st)) l k -> In (m, a) l -> Z.of_nat (length l) <= 1 -> covers s l k a qs).
  { intros l k a m s qs _ J L p q Ip Np. rewrite (single _ _ J L) in Ip. destruct k as [|q0 k]; [easy|]. cbn [combine] in Ip. destruct Ip as [E|[]]. injection E as <- <-. now contradiction Np. }
  assert (VAL : forall h s qs, hext (r_h st) h -> hwf h -> (forall tx ty, rep (gof c (r_h st)) xa tx -> rep (gof c (r_h st)) ya ty -> inst s tx = inst s ty) -> covers s xl xs xa qs -> covers s yl ys ya qs -> valid M (map (fun q => (fst q, inst s (snd q))) qs)).
  { intros h s qs _ _ Us Cx Cy. exact (resolve_sem (r_h st) xl xs xm xa yl ys ym ya s qs (k_rep _ _ _ _ _ Kx) Vx Nx Ix (k_rep _ _ _ _ _ Ky) Vy Ny Iy Sg Us Cx Cy). }
  assert (NOV : ~ valid M []) by (intros Vn; specialize (Vn (fun _ => s_con M (KImm 0))); discriminate).
  destruct (Z.eqb_spec (Z.of_nat (length xl) + Z.of_nat (length yl) - 2) 0) as [Z0|Z0].
  { exfalso. apply NOV. assert (length xl <> O) by (intros E0; apply length_zero_iff_nil in E0; subst; easy). assert (length yl <> O) by (intros E0; apply length_zero_iff_nil in E0; subst; easy).
    destruct (n_inv c _ I) as (th & rk & Iv). cbn [b_h b_u] in Iv. apply (VAL (r_h st) th []); [apply hext_refl|exact W|apply (U th), (i_sol _ _ _ _ Iv)| |]; eapply TR; eauto using k_rep; lia. }
  destruct (wr_alloc (r_h st) _) as [[h0 a0]|] eqn:A.
  2:{ intros E. injection E as <-. destruct (fail_ok (r_h st) W) as (W' & X'). split; [now apply base_with|]. split; [exact Cv|exact X']. }
  assert (Ln : 0 < 2 * (Z.of_nat (length xl) + Z.of_nat (length yl) - 2)). { assert (length xl <> O) by (intros E0; apply length_zero_iff_nil in E0; subst; easy). assert (length yl <> O) by (intros E0; apply length_zero_iff_nil in E0; subst; easy). lia. }
  destruct (alloc_ok _ _ _ _ W Ln A) as (W0 & X0 & _). clear A. pose proof (bpost_heap c _ h0 I W0 X0) as P0. cbn [b_h b_u b_vc] in P0. set (b0 := Bst h0 (r_u st) 0) in *. pose proof (q_inv _ _ _ P0) as I0.
  assert (Rx0 : Forall2 (lrep c (b_h b0)) xl xs) by (apply (lreps_ext c (r_h st)); [now apply hext_rsub|apply (k_rep _ _ _ _ _ Kx)]).
  assert (X1 : forall b1 r1, (if 1 <? Z.of_nat (length xl) then wr_process_resolve_result_aux n c b0 xl xa [] else Some (b0, Some [])) = Some (b1, r1) ->
     bpost c b0 b1 /\ forall acc1, r1 = Some acc1 -> exists qs1, accrel b1 acc1 qs1 /\ forall th, fin b1 th -> covers (ssub 3 th) xl xs xa qs1).
  { intros b1 r1. destruct (Z.ltb_spec 1 (Z.of_nat (length xl))) as [L|L]; intros E.
    - destruct (aux_ok n xl xs xa b0 [] [] b1 r1 I0 Rx0 (k_lok _ _ _ _ _ Kx) (Forall2_nil _) E) as (P & Y). split; [exact P|]. intros acc1 Ea. destruct (Y acc1 Ea) as (qs1 & A1 & _ & C1). now exists qs1.
    - injection E as <- <-. split; [now apply bpost_refl|]. intros acc1 E. injection E as <-. exists []. split; [constructor|]. intros th _. now apply (TR xl xs xa xm _ _ (k_rep _ _ _ _ _ Kx)). }
  destruct (if 1 <? Z.of_nat (length xl) then _ else _) as [[b1 r1]|]; [|discriminate]. destruct (X1 b1 r1 eq_refl) as (P1 & Y1). clear X1. pose proof (q_inv _ _ _ P1) as I1. pose proof (bpost_trans c _ _ _ P0 P1) as P01.
  assert (DONE : forall b, bpost c (Bst (r_h st) (r_u st) 0) b -> base (with_b st (b_h b) (cleanupsubst b) DERIVED) /\ cov (cleanupsubst b) /\ hext (r_h st) (b_h b)).
  { intros b P. split; [|split].
    - apply base_with; [exact Bs|apply (n_wf c b), (q_inv _ _ _ P)|apply (q_ext _ _ _ P)].
    - apply cleanup_cov, (q_cov _ _ _ P), Cv.
    - apply (q_ext _ _ _ P). }
  destruct r1 as [acc1|]; [|intros E; injection E as <-; now apply DONE]. destruct (Y1 acc1 eq_refl) as (qs1 & A1 & C1).
  assert (Ry1 : Forall2 (lrep c (b_h b1)) yl ys) by (apply (lreps_ext c (r_h st)); [apply hext_rsub; [exact W|apply (q_ext _ _ _ P01)]|apply (k_rep _ _ _ _ _ Ky)]).
  assert (X2 : forall b2 r2, (if 1 <? Z.of_nat (length yl) then wr_process_resolve_result_aux n c b1 yl ya acc1 else Some (b1, Some acc1)) = Some (b2, r2) ->
     bpost c b1 b2 /\ forall acc2, r2 = Some acc2 -> exists qs2, accrel b2 acc2 qs2 /\ (exists more, qs2 = qs1 ++ more) /\ forall th, fin b2 th -> covers (ssub 3 th) yl ys ya qs2).
  { intros b2 r2. destruct (Z.ltb_spec 1 (Z.of_nat (length yl))) as [L|L]; intros E.
    - now apply (aux_ok n yl ys ya b1 acc1 qs1 b2 r2 I1 Ry1 (k_lok _ _ _ _ _ Ky) A1).
    - injection E as <- <-. split; [now apply bpost_refl|]. intros acc2 E. injection E as <-. exists qs1. split; [exact A1|]. split; [exists []; now rewrite app_nil_r|]. intros th _. now apply (TR yl ys ya ym _ _ (k_rep _ _ _ _ _ Ky)). }
  destruct (if 1 <? Z.of_nat (length yl) then _ else _) as [[b2 r2]|]; [|discriminate]. destruct (X2 b2 r2 eq_refl) as (P2 & Y2). clear X2. pose proof (q_inv _ _ _ P2) as I2. pose proof (bpost_trans c _ _ _ P01 P2) as P.
  destruct r2 as [acc|]; [|intros E; injection E as <-; now apply DONE]. destruct (Y2 acc eq_refl) as (qs & A2 & (more & Em) & C2).
  destruct (fin_ex b2 I2) as (th & Fi). destruct (DONE b2 P) as (Bs2 & Cv2 & Xt2). pose proof (n_wf c b2 I2) as W2.
  assert (Vq : valid M (map (fun q => (fst q, inst (ssub 3 th) (snd q))) qs)).
  { apply (VAL (b_h b2) (ssub 3 th) qs Xt2 W2).
    - intros tx ty Rtx Rty. rewrite !ssub_inst. f_equal. now apply (U th (q_sol _ _ _ P th (proj1 Fi))).
    - intros p q Ip Np. destruct (C1 th (fin_post b1 b2 th P2 Fi) p q Ip Np) as (q' & Iq & Q). exists q'. split; [rewrite Em; apply in_or_app; now left|exact Q].
    - now apply C2. }
  destruct acc as [|pa acc]. { exfalso. apply NOV. inversion A2 as [Eq1 Eq2|]. rewrite <- Eq2 in Vq. exact Vq. }
  set (acc3 := pa :: acc) in *. clearbody acc3. clear pa acc. set (st2 := with_b st (b_h b2) (cleanupsubst b2) DERIVED) in *. set (part := c_hyper c && negb (satellite_tmpres c acc3)).
  set (st3 := if part then new_buffer st2 else with_b st2 (r_h st2) (r_u st2) QUEUE).
  assert (Bs3 : base st3) by (unfold st3; destruct part; [destruct Bs2; now constructor|apply base_with; [exact Bs2|exact W2|apply hext_refl]]).
  assert (H3 : r_h st3 = b_h b2 /\ r_u st3 = cleanupsubst b2) by (unfold st3; destruct part; now split). destruct H3 as (H3 & U3). rewrite H3, U3.
  destruct (isrulecl c (b_h b2) acc3) as [rule|] eqn:Ir; [|discriminate].
  assert (Ra : Forall2 (lrep c (b_h b2)) acc3 (map (fun q => (fst q, inst (ssub 3 th) (snd q))) qs)).
  { clear - A2 Fi I2. induction A2 as [|p q l k (S1 & _ & _ & B1) F IH]; cbn [map]; constructor; [|exact IH]. split; cbn [fst snd]; [exact S1|]. now apply (built_fin 3 b2 (snd p) (snd q) th I2 ltac:(lia) Fi). }
  assert (Oa : Forall lok (map (fun q => (fst q, inst (ssub 3 th) (snd q))) qs)).
  { clear - A2 Fi I2. induction A2 as [|p q l k (_ & T1 & _ & B1) F IH]; cbn [map]; constructor; [|exact IH]. split; cbn [fst snd]; [now apply isTF_inst|]. now apply (built_fin 3 b2 (snd p) (snd q) th I2 ltac:(lia) Fi). }
  destruct (build_result n c (Bst (b_h b2) (cleanupsubst b2) 0) rule acc3) as [[b4 r4]|] eqn:E4; [|discriminate].
  assert (Rf : rule = false -> exists meta atom, acc3 = [(meta, atom)] /\ is_neg meta = false) by (intros ->; now apply (isrule_false (b_h b2))).
  destruct (result_ok n (Bst (b_h b2) (cleanupsubst b2) 0) rule acc3 _ b4 r4 W2 Ra Oa Vq Rf E4) as (U4 & W4 & X4 & G4). cbn [b_h b_u] in *.
  assert (Bs4 : forall u buf, base (with_b st3 (b_h b4) u buf)) by (intros u buf; apply base_with; [exact Bs3|exact W4|now rewrite H3]).
  assert (Xt4 : hext (r_h st) (b_h b4)) by now apply (hext_trans _ (b_h b2)).
  destruct r4 as [res|].
  2:{ intros E. injection E as <-. split; [apply Bs4|]. split; [cbn [with_b r_u]; now rewrite U4|exact Xt4]. }
  pose proof (G4 res eq_refl) as Gr. destruct (satellite_cl c (b_h b4) res) as [sat|]; [|discriminate]. destruct (c_hyper c && negb sat).
  - destruct part; [|discriminate]. destruct (rec _ res) as [st5|] eqn:E5; [|discriminate]. intros E. injection E as <-.
    assert (S4 : SI (with_b st3 (b_h b4) (wr_clear_varstack (b_u b4)) (r_buf st3))) by (split; [apply Bs4|]; cbn [with_b r_u]; rewrite U4; now apply cov_clear).
    destruct (RO _ res st5 S4 Gr E5) as ((Bs5 & Cl5) & X5). split; [destruct Bs5; now constructor|]. split; [now apply clean_cov|]. cbn [free_buffer r_h]. now apply (hext_trans _ (b_h b4)).
  - intros E. injection E as <-. split; [|split].
    + destruct (Bs4 (b_u b4) (r_buf st3)) as [Z1 Z2 Z3 Z4 Z5 Z6]. constructor; cbn [wr_push_clqueue_cl with_b r_h r_queue r_active r_pos r_neg r_proof] in *; try assumption. apply Forall_app. split; [exact Z2|]. constructor; [now apply gooda_good|constructor].
    + cbn [wr_push_clqueue_cl with_b r_u]. now rewrite U4.
    + exact Xt4.
Qed.

(** ** Candidates *)
Lemma node_rep h sg a cl : node_ok h sg a cl -> exists t, rep (gof c h) a t /\ small t.
Proof.
  intros (lits & ls & m & [_ R O] & _ & _ & I & _). clear - R O I. induction R as [|p q l k (_ & Rp) F IH]; [easy|]. destruct I as [->|I]; [|apply IH; [exact (Forall_inv_tail O)|exact I]]. exists (snd q). split; [exact Rp|apply (Forall_inv O)].
Qed.
Lemma node_loop_ok n rec xa xcl sg : recok rec -> forall nodes st st' b, SI st -> node_ok (r_h st) sg xa xcl -> Forall (fun p => node_ok (r_h st) (negb sg) (fst (snd p)) (snd (snd p))) nodes ->
  node_loop n c rec xa xcl nodes st = Some (st', b) -> SI st' /\ hext (r_h st) (r_h st').
Proof.
  intros RO. induction nodes as [|[hs [ya ycl]] nodes IH]; intros st st' b (Bs & Cl) Nx Ny; cbn [node_loop]; [intros E; injection E as <- <-; split; [now split|apply hext_refl]|].
  pose proof (Forall_inv Ny) as Ny1. pose proof (Forall_inv_tail Ny) as Ny2. cbn [fst snd] in Ny1. pose proof (s_wf st Bs) as W.
  destruct (wr_unify_term n (gof c (r_h st)) true (r_u st) xa ya) as [[u b1]|] eqn:E1; [|discriminate].
  destruct (node_rep _ _ _ _ Nx) as (tx & Rx & Ox). destruct (node_rep _ _ _ _ Ny1) as (ty & Ry & Oy). apply small_within in Ox, Oy.
  pose proof (inv_empty (gof c (r_h st)) (u_vb (r_u st)) (proj1 Cl)) as Iv.
  assert (C0 : closed (gof c (r_h st)) (okV 0) (u_vb (r_u st))) by (intros v t N; now contradiction (N (proj1 Cl v))).
  pose proof (std_gof c (r_h st) Sd) as Sg. destruct (unify_within _ _ Sg n _ _ _ _ _ _ _ _ _ Iv Rx Ry C0 Ox Oy E1) as (C1 & V1).
  pose proof (unify_ok _ Sg n _ _ _ _ _ _ _ _ _ Iv Rx Ry E1) as [I1 (new & K1 & _ & O1 & _) _ T1 _].
  assert (Cv : cov u). { intros v N. rewrite K1. apply in_or_app. left. destruct (in_dec Z.eq_dec v new) as [J|J]; [exact J|]. rewrite (O1 v J) in N. now contradiction (N (proj1 Cl v)). }
  assert (Sc : forall st1, base st1 -> cov (r_u st1) -> SI (with_b st1 (r_h st1) (wr_clear_varstack (r_u st1)) (r_buf st1))).
  { intros st1 B1 V. split; [apply base_with; [exact B1|apply (s_wf st1 B1)|apply hext_refl]|now apply cov_clear]. }
  assert (Bu : base (with_b st (r_h st) u (r_buf st))) by (apply base_with; [exact Bs|exact W|apply hext_refl]).
  destruct b1.
  - destruct (wr_process_resolve_result n c rec (with_b st (r_h st) u (r_buf st)) xa xcl ya ycl) as [st1|] eqn:E2; [|discriminate].
    assert (Bi : binv c (Bst (r_h st) u 0)).
    { constructor; cbn [b_h b_u b_vc]; [exact W|exact I1| |lia|exact C1]. intros v L. destruct (Z.eq_dec (u_vb u v) (u_vb (r_u st) v)) as [Q|Q]; [rewrite Q; apply (proj1 Cl)|]. specialize (V1 v Q). apply okV_in in V1; lia. }
    destruct (process_ok n rec (with_b st (r_h st) u (r_buf st)) xa xcl ya ycl sg st1 RO Bu Cv Bi Nx Ny1) as (B2 & C2 & X2); [|exact E2|].
    { intros th Sth tx' ty' Rx' Ry'. cbn [with_b r_h r_u] in Sth, Rx', Ry'. rewrite <- (rep_det _ _ _ Rx _ Rx'), <- (rep_det _ _ _ Ry _ Ry'). now apply (T1 eq_refl th). }
    cbn [with_b r_h] in X2. pose proof (Sc st1 B2 C2) as S2. set (st2 := with_b st1 _ _ _) in *.
    assert (X3 : hext (r_h st) (r_h st2)) by exact X2. destruct (r_proof st2 || h_err (r_h st2)); [intros E; injection E as <- <-; now split|]. intros E.
    destruct (IH st2 st' b S2) as (Z1 & Z2); [now apply (node_ext (r_h st))| |exact E|].
    + apply (Forall_impl _ (fun p => node_ext (r_h st) (r_h st2) _ _ _ W X3) Ny2).
    + split; [exact Z1|]. now apply (hext_trans _ (r_h st2)).
  - intros E. now apply (IH (with_b st (r_h st) (wr_clear_varstack u) (r_buf st)) st' b (Sc (with_b st (r_h st) u (r_buf st)) Bu Cv)).
Qed.
Lemma lit_loop_ok n rec rule posok negok cl : recok rec -> forall ls negadded st st', SI st -> (forall m a, In (m, a) ls -> node_ok (r_h st) (rule && is_neg m) a cl) ->
  lit_loop n c rec rule posok negok cl negadded ls st = Some st' -> SI st' /\ hext (r_h st) (r_h st').
Proof.
  intros RO. induction ls as [|[m a] ls IH]; intros negadded st st' I L; cbn [lit_loop]; [intros E; injection E as <-; split; [exact I|apply hext_refl]|].
  destruct (_ || _); [|apply IH; [exact I|]; intros m1 a1 J; apply L; now right].
  pose proof (L m a (or_introl eq_refl)) as Nx. destruct (node_loop n c rec a cl _ st) as [[st1 b1]|] eqn:E1; [|discriminate].
  set (nodes := filter _ _) in E1.
  assert (Fn : Forall (fun p => node_ok (r_h st) (negb (rule && is_neg m)) (fst (snd p)) (snd (snd p))) nodes).
  { destruct I as (Bs & _). apply Forall_forall. intros p Ip. apply filter_In in Ip. destruct Ip as (Ip & _). destruct (rule && is_neg m); cbn [negb]; [pose proof (s_pos st Bs) as F|pose proof (s_neg st Bs) as F]; rewrite Forall_forall in F; now apply F. }
  destruct (node_loop_ok n rec a cl (rule && is_neg m) RO nodes st st1 b1 I Nx Fn E1) as (I1 & X1).
  destruct b1; [intros E; injection E as <-; now split|]. intros E. destruct (IH (negadded || rule && is_neg m) st1 st' I1) as (I2 & X2); [|exact E|].
  - intros m1 a1 J. apply (node_ext (r_h st)); [apply (s_wf st (proj1 I))|exact X1|]. apply L. now right.
  - split; [exact I2|]. now apply (hext_trans _ (r_h st1)).
Qed.
Lemma gooda_nodes h cl lits : gooda h cl -> clause_lits h cl = Some lits -> forall m a, In (m, a) lits -> node_ok h (h_rule h cl && is_neg m) a cl.
Proof.
  intros (l & ls & K & V & N) E m a I. pose proof (k_lits _ _ _ _ _ K) as El. rewrite El in E. injection E as <-. exists l, ls, m. repeat (split; [assumption|]). unfold clause_lits in El. destruct (h_rule h cl); [reflexivity|]. injection El as <-. destruct I as [I|[]]. injection I as <- <-. reflexivity.
Qed.
Lemma active_ok n : recok (wr_resolve_binary_all_active n c).
Proof.
  induction n as [|n IH]; intros st cl st' I G; cbn [wr_resolve_binary_all_active]; [discriminate|]. destruct (clause_lits (r_h st) cl) as [ls|] eqn:E; [|discriminate]. apply lit_loop_ok; [exact IH|exact I|]. now apply gooda_nodes.
Qed.
Lemma store_ok rule posok negok cl : forall ls negadded st, base st -> (forall m a, In (m, a) ls -> node_ok (r_h st) (rule && is_neg m) a cl) ->
  base (store_lits c rule posok negok cl negadded ls st) /\ r_h (store_lits c rule posok negok cl negadded ls st) = r_h st /\ r_u (store_lits c rule posok negok cl negadded ls st) = r_u st.
Proof.
  induction ls as [|[m a] ls IH]; intros negadded st Bs L; cbn [store_lits]; [now split|]. destruct (_ || _); [|apply IH; [exact Bs|]; intros m1 a1 J; apply L; now right].
  pose proof (L m a (or_introl eq_refl)) as Nx. set (st1 := if rule && is_neg m then _ else _).
  assert (Q : base st1 /\ r_h st1 = r_h st /\ r_u st1 = r_u st).
  { unfold st1. destruct Bs as [W Qu A P N F]. destruct (rule && is_neg m); (split; [|now split]); constructor; try assumption; constructor; assumption. }
  destruct Q as (B1 & H1 & U1). destruct (IH (negadded || rule && is_neg m) st1 B1) as (Z1 & Z2 & Z3); [intros m1 a1 J; rewrite H1; apply L; now right|]. split; [exact Z1|]. split; congruence.
Qed.
Lemma push_ok st cl st' : SI st -> gooda (r_h st) cl -> wr_push_clactive_cl c st cl = Some st' -> SI st' /\ r_h st' = r_h st.
Proof.
  intros (Bs & Cl) G. unfold wr_push_clactive_cl. destruct (clause_lits (r_h st) cl) as [ls|] eqn:E; [|discriminate]. intros E1. injection E1 as <-. set (st1 := Rst _ _ _ _ _ _ _ _ _ _ _).
  assert (B1 : base st1). { destruct Bs as [W Qu A P N F]. constructor; try assumption. cbn [st1 r_active r_h]. apply Forall_app. split; [exact A|]. constructor; [now apply gooda_good|constructor]. }
  edestruct (store_ok (h_rule (r_h st) cl) (pos_ok c (h_rule (r_h st) cl) ls) (neg_ok c (h_rule (r_h st) cl) ls) cl ls false st1 B1) as (Z1 & Z2 & Z3); [now apply gooda_nodes|].
  split; [split; [exact Z1|]; rewrite Z3; exact Cl|exact Z2].
Qed.
Lemma rebuild_ok n bank buf st cl st' r : SI st -> 0 <= bank <= 3 -> good (r_h st) cl -> rebuild n c bank buf st cl = Some (st', r) -> SI st' /\ hext (r_h st) (r_h st') /\ forall y, r = Some y -> gooda (r_h st') y.
Proof.
  intros (Bs & Cl) Bk G. unfold rebuild. destruct (wr_build_calc_cl _ _ _ _ _) as [[b r1]|] eqn:E1; [|discriminate]. intros E. injection E as <- <-.
  destruct (cl_build n bank (Bst (r_h st) (r_u st) 0) cl b r1 (clean_binv _ _ (s_wf st Bs) Cl) eq_refl Bk G E1) as (P & Y). pose proof (q_ext _ _ _ P) as X. split; [split|split].
  - apply base_with; [exact Bs|apply (n_wf c b), (q_inv _ _ _ P)|exact X].
  - apply cov_clear, (q_cov _ _ _ P). now apply clean_cov.
  - exact X.
  - exact Y.
Qed.
Theorem genloop_ok : forall n st st' r, SI st -> wr_genloop n c st = Some (st', r) -> base st' /\ r <> 0 /\ hext (r_h st) (r_h st').
Proof.
  induction n as [|n IH]; intros st st' r I; cbn [wr_genloop]; [discriminate|].
  destruct (h_err (r_h st)); [intros E; injection E as <- <-; split; [apply I|]; split; [lia|apply hext_refl]|].
  destruct (nth_error (r_queue st) (r_given st)) as [cand|] eqn:Ec; [|intros E; injection E as <- <-; split; [apply I|]; split; [lia|apply hext_refl]].
  set (st0 := Rst _ _ _ _ _ _ _ _ _ _ _). assert (I0 : SI st0) by (destruct I as ([W Q A P N F] & Cl); split; [now constructor|exact Cl]).
  change (r_h st) with (r_h st0). assert (Gc : good (r_h st0) cand) by (pose proof (s_queue st0 (proj1 I0)) as F; rewrite Forall_forall in F; apply F; now apply (nth_error_In _ (r_given st))).
  clearbody st0. clear Ec I st. destruct (wr_given_cl_subsumed n c (r_h st0) (r_u st0) (r_active st0) cand) as [[u b]|] eqn:Eg; [|discriminate].
  assert (I1 : SI (with_b st0 (r_h st0) u (r_buf st0))). { destruct I0 as (Bs & Cl). split; [apply base_with; [exact Bs|apply (s_wf st0 Bs)|apply hext_refl]|]. exact (subsumed_clean n c _ _ _ _ _ _ Cl Eg). }
  destruct b; [apply (IH _ _ _ I1)|]. destruct (rebuild n c 1 GIVEN _ cand) as [[st1 r1]|] eqn:E1; [|discriminate].
  destruct (rebuild_ok n 1 GIVEN _ cand st1 r1 I1 ltac:(lia) Gc E1) as (J1 & X1 & G1). cbn [with_b r_h] in X1.
  assert (NXT : forall st2, SI st2 -> hext (r_h st0) (r_h st2) -> (if h_err (r_h st2) then Some (st2, -1) else wr_genloop n c st2) = Some (st', r) -> base st' /\ r <> 0 /\ hext (r_h st0) (r_h st')).
  { intros st2 J2 X2. destruct (h_err (r_h st2)); [intros E; injection E as <- <-; split; [apply J2|]; split; [lia|exact X2]|]. intros E. destruct (IH _ _ _ J2 E) as (Z1 & Z2 & Z3). split; [exact Z1|]. split; [exact Z2|]. now apply (hext_trans _ (r_h st2)). }
  destruct r1 as [given|]; [|now apply NXT]. pose proof (G1 given eq_refl) as Gg. destruct (rebuild n c 2 ACTIVE st1 given) as [[st2 r2]|] eqn:E2; [|discriminate].
  destruct (rebuild_ok n 2 ACTIVE st1 given st2 r2 J1 ltac:(lia) (gooda_good _ _ Gg) E2) as (J2 & X2 & G2). pose proof (hext_trans _ _ _ X1 X2) as X12.
  destruct r2 as [act|]; [|now apply NXT]. pose proof (G2 act eq_refl) as Ga. destruct (wr_push_clactive_cl c st2 act) as [st3|] eqn:E3; [|discriminate].
  destruct (push_ok st2 act st3 J2 Ga E3) as (J3 & H3). destruct (wr_resolve_binary_all_active n c st3 given) as [st4|] eqn:E4; [|discriminate].
  assert (Gg3 : gooda (r_h st3) given) by (rewrite H3; apply (gooda_ext (r_h st1)); [apply (s_wf st1 (proj1 J1))|exact X2|exact Gg]).
  destruct (active_ok n st3 given st4 J3 Gg3 E4) as (J4 & X4). rewrite (s_noproof st4 (proj1 J4)). apply NXT; [exact J4|]. apply (hext_trans _ (r_h st3)); [|exact X4]. now rewrite H3.
Qed.
End Sound.
