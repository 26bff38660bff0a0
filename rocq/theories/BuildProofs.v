(** Building terms and clauses in the reasoner (Reasoner/build.c): the built term is the
    instance of the given one, with its variables renamed. *)
From Coq Require Import ZArith List Bool Lia.
From Verif Require Import Base EncodingModel EncodingProofs CompareModel UnistrModel UnifyModel UnifySpec UnifyProofs UnifyTotal MatchProofs ResolveModel.
Import ListNotations.
Open Scope Z_scope.
#[local] Ltac Zify.zify_post_hook ::= Z.div_mod_to_equations.

(** ** Memory *)
Definition hwf (h : heap) : Prop := 0 < h_next h /\ h_next h mod 8 = 0 /\ forall a fs, h_rec h a = Some fs -> 0 < a < h_next h /\ a mod 8 = 0.
Definition rsub (h h' : heap) : Prop := forall a fs, h_rec h a = Some fs -> h_rec h' a = Some fs.
Definition hext (h h' : heap) : Prop := h_next h <= h_next h' /\ forall a, a < h_next h -> h_rec h' a = h_rec h a /\ h_rule h' a = h_rule h a.
Lemma hext_refl h : hext h h.
Proof. split; [lia|easy]. Qed.
Lemma hext_trans a b c : hext a b -> hext b c -> hext a c.
Proof. intros (L1 & E1) (L2 & E2). split; [lia|]. intros x Hx. destruct (E1 x Hx) as (<- & <-). apply E2. lia. Qed.
Lemma hext_rsub h h' : hwf h -> hext h h' -> rsub h h'.
Proof. intros (_ & _ & W) (_ & E) a fs R. destruct (W a fs R) as ((_ & L) & _). destruct (E a L) as (-> & _). exact R. Qed.
Lemma std_gof c h : std (c_g c) -> std (gof c h).
Proof. easy. Qed.
Lemma wf_gof c h : std (c_g c) -> hwf h -> wf (gof c h).
Proof. intros Sd (_ & _ & W). split; [exact Sd|]. intros a fs R. destruct (W a fs R). rewrite land7. lia. Qed.
Lemma rep_ext c h h' : rsub h h' -> forall x t, rep (gof c h) x t -> rep (gof c h') x t.
Proof.
  intros S. apply (rep_mut (gof c h) (fun x t _ => rep (gof c h') x t) (fun xs ts _ => reps (gof c h') xs ts)).
  - intros e V. now apply rep_var.
  - intros e V D N. change (g_db (gof c h)) with (g_db (gof c h')). now apply rep_con.
  - intros e fs ts D R L _ IH. apply (rep_rec (gof c h') e fs); [exact D| |exact L|exact IH]. unfold record in *. cbn [gof g_rec] in *. now apply S.
  - constructor.
  - intros. now constructor.
Qed.
Lemma reps_ext c h h' xs ts : rsub h h' -> reps (gof c h) xs ts -> reps (gof c h') xs ts.
Proof. intros S. induction 1; constructor; [now apply (rep_ext c h)|assumption]. Qed.
Definition bound (g : genv) (vb : Z -> Z) : Prop := forall v, vb v <> UNASSIGNED -> exists t, rep g (vb v) t.
Lemma solves_ext c h h' vb th : rsub h h' -> bound (gof c h) vb -> solves (gof c h) vb th <-> solves (gof c h') vb th.
Proof.
  intros S B. split; intros H v t N R.
  - destruct (B v N) as (u & Ru). rewrite <- (rep_det _ _ _ (rep_ext c h h' S _ _ Ru) _ R). now apply H.
  - apply H; [exact N|]. now apply (rep_ext c h).
Qed.
Lemma inv_ext c h h' vb th rk : rsub h h' -> inv (gof c h) vb th rk -> inv (gof c h') vb th rk.
Proof.
  intros S [F O M R K]. constructor.
  - exact F.
  - now apply (solves_ext c h h').
  - intros th' S'. apply M. now apply (solves_ext c h h').
  - intros v N. destruct (R v N) as (t & Rt). exists t. now apply (rep_ext c h).
  - exact K.
Qed.
Lemma closed_ext c h h' V vb : rsub h h' -> bound (gof c h) vb -> closed (gof c h) V vb -> closed (gof c h') V vb.
Proof. intros S B C v t N R. destruct (B v N) as (u & Ru). rewrite <- (rep_det _ _ _ (rep_ext c h h' S _ _ Ru) _ R). now apply (C v). Qed.

(** ** Variables *)
(** The variables of banks 0 to 3 and the first [vc] of the renaming bank. *)
Definition okV (vc : Z) : list Z := map Z.of_nat (seq 0 (Z.to_nat (4000 + vc))).
Lemma okV_in vc v : 0 <= vc -> In v (okV vc) <-> 0 <= v < 4000 + vc.
Proof.
  intros H. unfold okV. rewrite in_map_iff. split.
  - intros (k & <- & I). apply in_seq in I. lia.
  - intros L. exists (Z.to_nat v). split; [lia|]. apply in_seq. lia.
Qed.
Lemma within_le vc vc' t : 0 <= vc <= vc' -> within (okV vc) t -> within (okV vc') t.
Proof. intros L W v O. specialize (W v O). apply okV_in in W; [|lia]. apply okV_in; lia. Qed.
Lemma evar v : 0 <= v < 10000 -> isvar (encode_var v) = true /\ decode_var (encode_var v) = v.
Proof.
  intros H. assert (E : encode_var v = v * 16 + 7) by (apply encode_var_eq; lia). rewrite E. unfold isvar, decode_var. rewrite land15, Z.shiftr_div_pow2 by lia. change (2 ^ 4) with 16. split; [apply Z.eqb_eq|]; lia.
Qed.
Definition cov (st : ust) : Prop := forall v, u_vb st v <> UNASSIGNED -> In v (u_stk st).
Lemma cov_set st x y : cov st -> cov (setvar st x y).
Proof. intros C v. unfold setvar. cbn [u_vb u_stk]. unfold upd. destruct (Z.eqb_spec v (decode_var x)) as [->|]; [now left|]. intros N. right. now apply C. Qed.

(** ** States while building *)
Record binv (c : cfg) (b : bst) : Prop := Binv {
  n_wf : hwf (b_h b);
  n_inv : exists th rk, inv (gof c (b_h b)) (u_vb (b_u b)) th rk;
  n_high : forall v, 4000 <= v -> u_vb (b_u b) v = UNASSIGNED;
  n_vc : 0 <= b_vc b <= 1000;
  n_closed : closed (gof c (b_h b)) (okV (b_vc b)) (u_vb (b_u b)) }.
Record bpost (c : cfg) (b b' : bst) : Prop := Bpost {
  q_inv : binv c b';
  q_ext : hext (b_h b) (b_h b');
  q_sol : forall th, solves (gof c (b_h b')) (u_vb (b_u b')) th -> solves (gof c (b_h b)) (u_vb (b_u b)) th;
  q_cov : cov (b_u b) -> cov (b_u b');
  q_vc : b_vc b <= b_vc b' }.
Lemma bpost_refl c b : binv c b -> bpost c b b.
Proof. intros I. constructor; [exact I|apply hext_refl|easy|easy|lia]. Qed.
Lemma bpost_trans c x y z : bpost c x y -> bpost c y z -> bpost c x z.
Proof. intros [I1 E1 S1 C1 V1] [I2 E2 S2 C2 V2]. constructor; [exact I2|now apply (hext_trans _ (b_h y))|auto|auto|lia]. Qed.
Lemma n_bound c b : binv c b -> bound (gof c (b_h b)) (u_vb (b_u b)).
Proof. intros [_ (th & rk & I) _ _ _]. exact (i_rep _ _ _ _ I). Qed.
(** Only the memory changes. *)
Lemma binv_heap c b h : binv c b -> hwf h -> rsub (b_h b) h -> binv c (Bst h (b_u b) (b_vc b)).
Proof.
  intros I W S. pose proof (n_bound c b I) as B. destruct I as [_ (th & rk & I) H V C]. constructor; cbn [b_h b_u b_vc]; try assumption.
  - exists th, rk. now apply (inv_ext c (b_h b)).
  - now apply (closed_ext c (b_h b)).
Qed.
Lemma bpost_heap c b h : binv c b -> hwf h -> hext (b_h b) h -> bpost c b (Bst h (b_u b) (b_vc b)).
Proof.
  intros I W E. pose proof (hext_rsub _ _ (n_wf c b I) E) as S. constructor; cbn [b_h b_u b_vc].
  - now apply binv_heap.
  - exact E.
  - intros th. now apply (solves_ext c (b_h b) h _ th S (n_bound c b I)).
  - easy.
  - lia.
Qed.
Lemma alloc_ok h k h' y : hwf h -> 0 < k -> wr_alloc h k = Some (h', y) -> hwf h' /\ hext h h' /\ y = h_next h /\ h_next h' = h_next h + 8 * k /\ h_rec h' = h_rec h /\ h_rule h' = h_rule h.
Proof.
  intros (P & A & W) K. unfold wr_alloc. remember (8 * k) as d eqn:Ed. destruct (h_next h + d <? h_lim h); [|discriminate]. intros E. injection E as <- <-. unfold hwf, hext. cbn [h_next h_rec h_rule].
  split; [|split; [|easy]].
  - split; [lia|]. split; [lia|]. intros a fs H. destruct (W a fs H). lia.
  - split; [lia|easy].
Qed.
Lemma fail_ok h : hwf h -> hwf (h_fail h) /\ hext h (h_fail h).
Proof. intros W. split; [exact W|]. split; [cbn [h_next h_fail]; lia|easy]. Qed.
Lemma bpost_fail c b : binv c b -> bpost c b (b_fail b).
Proof. intros I. destruct (fail_ok (b_h b) (n_wf c b I)). now apply bpost_heap. Qed.
(** A record is written at a place given out before. *)
Lemma write_ok h h1 h2 y fs rule : hwf h -> hwf h2 -> y = h_next h -> hext h h1 -> y < h_next h1 -> h_rec h1 = h_rec h -> hext h1 h2 -> hwf (h_write h2 y fs rule) /\ hext h (h_write h2 y fs rule) /\ rsub h2 (h_write h2 y fs rule).
Proof.
  intros W W2 -> (L1 & E1) L R1 (L2 & E2). assert (N : h_rec h2 (h_next h) = None).
  { destruct (E2 (h_next h) L) as (-> & _). rewrite R1. destruct (h_rec h (h_next h)) eqn:E; [|reflexivity]. destruct W as (_ & _ & W). destruct (W _ _ E). lia. }
  destruct W as (P & A & W). destruct W2 as (P2 & A2 & W2). split; [|split].
  - unfold hwf, h_write. cbn [h_next h_rec]. split; [exact P2|]. split; [exact A2|]. intros a fs0. destruct (Z.eqb_spec a (h_next h)) as [->|D]; [lia|]. apply W2.
  - split; unfold h_write; cbn [h_next h_rec h_rule]; [lia|]. intros a La. destruct (Z.eqb_spec a (h_next h)); [lia|]. destruct (E2 a) as (-> & ->); [lia|]. apply E1. lia.
  - intros a fs' H. unfold h_write. cbn [h_rec]. destruct (Z.eqb_spec a (h_next h)) as [->|]; [congruence|exact H].
Qed.

(** ** Terms *)
Definition ren (bank w : Z) : term := TV (bank * 1000 + (w - 4000)).
(** [y] is the built form of [t]. *)
Definition built (c : cfg) (bank : Z) (b : bst) (y : Z) (t : term) : Prop :=
  forall th, solves (gof c (b_h b)) (u_vb (b_u b)) th -> (forall w, 4000 <= w -> th w = TV w) ->
    rep (gof c (b_h b)) y (inst (ren bank) (inst th t)) /\ forall w, occurs w (inst th t) -> 4000 <= w < 4000 + b_vc b.
Lemma built_mono c bank b b' y t : binv c b -> bpost c b b' -> built c bank b y t -> built c bank b' y t.
Proof.
  intros I [_ E S _ V] B th So H. destruct (B th (S th So) H) as (R & O). split.
  - apply (rep_ext c (b_h b)); [now apply hext_rsub; [apply (n_wf c)|]|exact R].
  - intros w Ow. specialize (O w Ow). lia.
Qed.
Definition isTF (t : term) : Prop := match t with TF _ => True | _ => False end.
Definition fpost (c : cfg) (bank : Z) (b b' : bst) (x y : Z) (t : term) : Prop :=
  bpost c b b' /\ (y <> WG_ILLEGAL -> built c bank b' y t /\ (isTF t -> isdatarec y = true /\ h_next (b_h b) <= y < h_next (b_h b') /\ h_rule (b_h b') y = h_rule (b_h b) x)).
Definition fok (c : cfg) (bank : Z) (f : bst -> Z -> option (bst * Z)) : Prop :=
  forall b x t b' y, binv c b -> rep (gof c (b_h b)) x t -> within (okV (b_vc b)) t -> f b x = Some (b', y) -> fpost c bank b b' x y t.
Lemma build_all_ok c bank skip f : (forall z, skip z = false) -> fok c bank f -> forall xs ts b b' r, binv c b -> reps (gof c (b_h b)) xs ts -> Forall (within (okV (b_vc b))) ts -> build_all skip f b xs = Some (b', r) ->
  bpost c b b' /\ forall ys, r = Some ys -> Forall2 (built c bank b') ys ts /\ (Forall isTF ts -> Forall (fun y => isdatarec y = true /\ h_next (b_h b) <= y < h_next (b_h b')) ys /\ NoDup ys).
Proof.
  intros Sk F. induction xs as [|x xs IH]; intros ts b b' r I Rs Ws; cbn [build_all]; inversion Rs as [|x' t xs' ts' R Rs']; subst.
  - intros E. injection E as <- <-. split; [now apply bpost_refl|]. intros ys E. injection E as <-. split; [constructor|]. intros _. split; constructor.
  - rewrite Sk. destruct (f b x) as [[b1 y]|] eqn:Ef; [|discriminate]. pose proof (Forall_inv Ws) as W1. destruct (F b x t b1 y I R W1 Ef) as (P1 & Y). pose proof (q_inv _ _ _ P1) as I1.
    destruct (Z.eqb_spec y WG_ILLEGAL) as [->|Ny]. { intros E. injection E as <- <-. split; [exact P1|discriminate]. }
    destruct (build_all skip f b1 xs) as [[b2 r2]|] eqn:E2; [|discriminate]. destruct (Y Ny) as (B1 & T1). pose proof (n_vc c b I) as V0. pose proof (q_vc _ _ _ P1) as V1.
    assert (Rs1 : reps (gof c (b_h b1)) xs ts') by (apply (reps_ext c (b_h b)); [apply hext_rsub; [apply (n_wf c b I)|apply (q_ext _ _ _ P1)]|exact Rs']).
    assert (Ws1 : Forall (within (okV (b_vc b1))) ts') by (apply (Forall_impl _ (fun u Hu => within_le (b_vc b) (b_vc b1) u ltac:(lia) Hu)), (Forall_inv_tail Ws)).
    destruct (IH ts' b1 b2 r2 I1 Rs1 Ws1 E2) as (P2 & Y2). pose proof (bpost_trans c _ _ _ P1 P2) as P. destruct r2 as [ys2|]; intros E; injection E as <- <-; (split; [exact P|]); [|discriminate].
    intros ys E. injection E as <-. destruct (Y2 ys2 eq_refl) as (B2 & T2). split.
    + constructor; [now apply (built_mono c bank b1)|exact B2].
    + intros Tf. destruct (T1 (Forall_inv Tf)) as (D1 & L1 & _). destruct (T2 (Forall_inv_tail Tf)) as (F2 & N2). destruct (q_ext _ _ _ P1) as (X1 & _). destruct (q_ext _ _ _ P2) as (X2 & _). split.
      * constructor; [split; [exact D1|lia]|]. apply (Forall_impl _ (fun z Hz => conj (proj1 Hz) (conj (Z.le_trans _ _ _ X1 (proj1 (proj2 Hz))) (proj2 (proj2 Hz)))) F2).
      * constructor; [|exact N2]. intros J. rewrite Forall_forall in F2. destruct (F2 y J). lia.
Qed.
Lemma map_inst2 th1 th2 ts : map (inst th1) (map (inst th2) ts) = map (fun t => inst th1 (inst th2 t)) ts.
Proof. apply map_map. Qed.
Theorem build_ok c subst bank : std (c_g c) -> 0 <= bank <= 4 -> forall n, fok c bank (wr_build_calc_term n c subst true bank).
Proof.
  intros Sd Bk. induction n as [|n IH]; intros b x t b' y I R W; cbn [wr_build_calc_term]; [discriminate|]. rewrite orb_true_r.
  destruct (value n (u_vb (b_u b)) x) as [x'|] eqn:Vx; [|discriminate]. destruct (n_inv c b I) as (th0 & rk0 & I0).
  destruct (value_spec _ _ th0 rk0 n x x' t I0 R Vx) as (t' & R' & E' & U').
  pose proof (value_within _ _ th0 rk0 n x x' t (okV (b_vc b)) I0 (n_closed c b I) R W Vx t' R') as W'.
  assert (TFx : isTF t -> x' = x /\ t' = t /\ isdatarec x = true).
  { intros T. destruct t as [| |ts]; try contradiction. inversion R; subst. unfold value in Vx. rewrite (rec_not_var x) in Vx by assumption. injection Vx as <-. split; [reflexivity|]. split; [now apply (rep_det _ _ _ R')|assumption]. }
  destruct (isdatarec x') eqn:Dx; cbn [negb].
  - (* record *)
    destruct (rep_rec_inv _ _ _ R' Dx) as (fs & ts & -> & Rc & Lf & Rs). unfold record in Rc. cbn [gof g_rec] in Rc. rewrite Rc.
    destruct (wr_alloc (b_h b) (3 + Z.of_nat (length fs))) as [[h1 a]|] eqn:A.
    2:{ intros E. injection E as <- <-. split; [now apply bpost_fail|easy]. }
    destruct (alloc_ok (b_h b) (3 + Z.of_nat (length fs)) h1 a (n_wf c b I) ltac:(lia) A) as (W1 & X1 & Ea & Nx & Rr & Rl). clear A.
    pose proof (bpost_heap c b h1 I W1 X1) as P1. set (b1 := Bst h1 (b_u b) (b_vc b)) in *. pose proof (q_inv _ _ _ P1) as I1.
    rewrite (std_slice (gof c (b_h b)) fs Sd). change (args (gof c (b_h b)) fs) with (args (gof c (b_h b1)) fs).
    assert (Rs1 : reps (gof c (b_h b1)) (args (gof c (b_h b1)) fs) ts) by (apply (reps_ext c (b_h b)); [apply hext_rsub; [apply (n_wf c b I)|exact X1]|exact Rs]).
    assert (Ws1 : Forall (within (okV (b_vc b1))) ts) by now apply within_TF.
    destruct (build_all _ _ b1 _) as [[b2 r]|] eqn:E2; [|discriminate].
    destruct (build_all_ok c bank (fun z => negb true && negb (isdatarec z)) _ (fun z => eq_refl) IH _ ts b1 b2 r I1 Rs1 Ws1 E2) as (P2 & Y2). pose proof (bpost_trans c _ _ _ P1 P2) as P.
    destruct r as [ys|]; intros E; injection E as <- <-; [|now split].
    destruct (Y2 ys eq_refl) as (B2 & _). pose proof (q_inv _ _ _ P2) as I2.
    assert (Lim : limit (gof c (b_h b)) (Z.of_nat (length fs)) = Z.of_nat (length fs)) by (unfold limit; cbn [gof g_maxuse]; destruct Sd as (_ & -> & _); reflexivity).
    rewrite Lim, Nat2Z.id, skipn_all, app_nil_r. set (ns := firstn _ fs ++ ys).
    destruct (write_ok (b_h b) h1 (b_h b2) a ns (h_rule (b_h b) (decode_datarec_offset x')) (n_wf c b I) (n_wf c b2 I2) Ea X1 ltac:(lia) Rr (q_ext _ _ _ P2)) as (W3 & X3 & S3).
    assert (I3 : binv c (b_write b2 a ns (h_rule (b_h b) (decode_datarec_offset x')))) by (apply binv_heap; assumption).
    assert (SE : forall th, solves (gof c (b_h (b_write b2 a ns (h_rule (b_h b) (decode_datarec_offset x'))))) (u_vb (b_u b2)) th <-> solves (gof c (b_h b2)) (u_vb (b_u b2)) th).
    { intros th. symmetry. apply solves_ext; [exact S3|now apply n_bound]. }
    assert (AY : isdatarec (encode_datarec_offset a) = true).
    { unfold isdatarec, encode_datarec_offset. rewrite land7. apply Z.eqb_eq. destruct (n_wf c b I) as (_ & M & _). lia. }
    split; [|intros _; split].
    + constructor; [exact I3|exact X3| |exact (q_cov _ _ _ P)|exact (q_vc _ _ _ P)]. intros th So. apply (q_sol _ _ _ P). now apply SE.
    + intros th So H. apply SE in So. assert (Eqt : inst th t = inst th (TF ts)) by (symmetry; apply E', (q_sol _ _ _ P), So). rewrite Eqt. cbn [b_write b_h b_u b_vc] in *. split.
      * cbn [inst]. rewrite map_inst2. apply (rep_rec _ _ ns); [exact AY| | |].
        -- unfold record, decode_datarec_offset, encode_datarec_offset. cbn [gof g_rec h_write h_rec]. now rewrite Z.eqb_refl.
        -- unfold ns. rewrite app_length, firstn_length. destruct Sd as (_ & _ & F0). cbn [gof g_first] in *. lia.
        -- unfold args. cbn [gof g_first] in *. unfold ns. assert (LF : length (firstn (Z.to_nat (g_first (c_g c))) fs) = Z.to_nat (g_first (c_g c))) by (rewrite firstn_length; destruct Sd as (_ & _ & F0); lia).
           rewrite skipn_app, LF, Nat.sub_diag, skipn_O, skipn_all2 by (rewrite LF; lia). cbn [app].
           apply (reps_ext c (b_h b2)); [exact S3|]. clear - B2 So H. induction B2 as [|y t ys ts By Bs IHb]; cbn [map]; constructor; [now apply By|exact IHb].
      * intros w. cbn [inst]. rewrite occurs_TF, Exists_exists. intros (u & Hu & Ow). apply in_map_iff in Hu. destruct Hu as (u0 & <- & Hu0). destruct (In_nth_error _ _ Hu0) as (k & Hk).
        clear - B2 So H Hu0 Ow. induction B2 as [|y t ys ts By Bs IHb]; [easy|]. destruct Hu0 as [->|Hu0]; [now apply (By th So H)|now apply IHb].
    + intros T. split; [exact AY|]. unfold encode_datarec_offset. destruct (q_ext _ _ _ P2) as (L2 & _). cbn [b_write b_h h_write h_next h_rule]. cbn [b_h b1] in *. split; [lia|]. rewrite Z.eqb_refl. destruct (TFx T) as (-> & _). reflexivity.
  - assert (NT : ~ isTF t) by (intros T; destruct (TFx T) as (-> & _ & D); congruence).
    destruct (isvar x') eqn:Vv; cbn [negb orb].
    + (* variable *)
      pose proof (rep_var_inv _ _ _ R' Vv) as ->. specialize (U' eq_refl). assert (Rg : 0 <= decode_var x' < 4000 + b_vc b) by (apply (okV_in (b_vc b)); [apply (n_vc c b I)|]; apply W'; reflexivity).
      unfold FIRST_UNREAL_VAR_NR, NROF_VARSINBANK. pose proof (n_vc c b I) as V0. destruct (Z.ltb_spec (decode_var x') 4000) as [L|L].
      * destruct (Z.leb_spec 1000 (b_vc b)) as [L2|L2]. { intros E. injection E as <- <-. split; [now apply bpost_fail|easy]. }
        intros E. injection E as <- <-. destruct (evar (b_vc b + 4000) ltac:(lia)) as (Ev & Dv). assert (Ry : rep (gof c (b_h b)) (encode_var (b_vc b + 4000)) (TV (b_vc b + 4000))) by (rewrite <- Dv at 2; now apply rep_var).
        assert (Uy : u_vb (b_u b) (b_vc b + 4000) = UNASSIGNED) by (apply (n_high c b I); lia).
        assert (I3 : binv c (Bst (b_h b) (setvar (b_u b) x' (encode_var (b_vc b + 4000))) (b_vc b + 1))).
        { constructor; cbn [b_h b_u b_vc setvar u_vb].
          - apply (n_wf c b I).
          - apply (inv_set _ _ th0 rk0 _ _ (TV (b_vc b + 4000)) I0 U' Ry); [|now intros _; rewrite Dv]. cbn [inst]. rewrite (i_free _ _ _ _ I0 _ Uy). cbn [occurs]. lia.
          - intros v Hv. unfold upd. destruct (Z.eqb_spec v (decode_var x')); [lia|]. now apply (n_high c b I).
          - lia.
          - apply (closed_set _ _ _ _ _ (TV (b_vc b + 4000))); [|exact Ry|].
            + intros v u N Ru. apply (within_le (b_vc b)); [lia|]. now apply (n_closed c b I v).
            + intros v. cbn [occurs]. intros <-. apply okV_in; lia. }
        split; [|intros _; split; [|easy]].
        -- constructor; cbn [b_h b_u b_vc]; [exact I3|apply hext_refl| |apply cov_set|lia]. intros th So. cbn [setvar u_vb] in So. now apply (solves_set _ _ _ _ _ _ U' Ry) in So.
        -- intros th So H. cbn [b_h b_u b_vc setvar u_vb] in *. apply (solves_set _ _ _ _ _ _ U' Ry) in So. destruct So as (So & Eq). cbn [inst] in Eq. rewrite (H (b_vc b + 4000)) in Eq by lia.
           rewrite <- (E' th So). cbn [inst]. rewrite Eq. cbn [inst]. split; [|intros w; cbn [occurs]; lia]. unfold ren. destruct (evar (bank * 1000 + b_vc b) ltac:(nia)) as (Ez & Dz). replace (bank * 1000 + (b_vc b + 4000 - 4000)) with (bank * 1000 + b_vc b) by lia. rewrite <- Dz at 2. now apply rep_var.
      * intros E. injection E as <- <-. split; [now apply bpost_refl|intros _; split; [|easy]]. intros th So H. rewrite <- (E' th So). cbn [inst]. rewrite (H (decode_var x')) by lia. cbn [inst]. split; [|intros w; cbn [occurs]; lia].
        unfold ren. destruct (evar (bank * 1000 + (decode_var x' - 4000)) ltac:(nia)) as (Ez & Dz). rewrite <- Dz at 2. now apply rep_var.
    + (* constant *)
      intros E. injection E as <- <-. split; [now apply bpost_refl|intros _; split; [|easy]]. intros th So _. rewrite <- (E' th So), (rep_con_inv _ _ _ R' Vv Dx). cbn [inst]. split; [|easy]. rewrite <- (rep_con_inv _ _ _ R' Vv Dx). exact R'.
Qed.

(** ** Copies *)
Definition cpost (b b' : bst) : Prop := b_u b' = b_u b /\ b_vc b' = b_vc b /\ hwf (b_h b') /\ hext (b_h b) (b_h b').
Lemma cpost_refl b : hwf (b_h b) -> cpost b b.
Proof. intros W. split; [reflexivity|]. split; [reflexivity|]. split; [exact W|apply hext_refl]. Qed.
Lemma cpost_trans x y z : cpost x y -> cpost y z -> cpost x z.
Proof. intros (A & B & C & D) (A' & B' & C' & D'). split; [congruence|]. split; [congruence|]. split; [exact C'|]. now apply (hext_trans _ (b_h y)). Qed.
Definition cok (c : cfg) (f : bst -> Z -> option (bst * Z)) : Prop :=
  forall b x t b' y, hwf (b_h b) -> rep (gof c (b_h b)) x t -> f b x = Some (b', y) ->
    cpost b b' /\ (y <> WG_ILLEGAL -> rep (gof c (b_h b')) y t /\ (isTF t -> isdatarec y = true /\ h_next (b_h b) <= y < h_next (b_h b'))).
Lemma copy_all_ok c skip f : (forall z, skip z = true -> isdatarec z = false) -> cok c f -> forall xs ts b b' r, hwf (b_h b) -> reps (gof c (b_h b)) xs ts -> build_all skip f b xs = Some (b', r) ->
  cpost b b' /\ forall ys, r = Some ys -> reps (gof c (b_h b')) ys ts /\ (Forall isTF ts -> Forall (fun y => isdatarec y = true /\ h_next (b_h b) <= y < h_next (b_h b')) ys /\ NoDup ys).
Proof.
  intros Sk F. induction xs as [|x xs IH]; intros ts b b' r W Rs; cbn [build_all]; inversion Rs as [|x' t xs' ts' R Rs']; subst.
  - intros E. injection E as <- <-. split; [now apply cpost_refl|]. intros ys E. injection E as <-. split; [constructor|]. intros _. split; constructor.
  - assert (HD : forall b1 o, (if skip x then Some (b, Some x) else match f b x with None => None | Some (b, y) => Some (b, if y =? WG_ILLEGAL then None else Some y) end) = Some (b1, o) ->
      cpost b b1 /\ forall y, o = Some y -> rep (gof c (b_h b1)) y t /\ (isTF t -> isdatarec y = true /\ h_next (b_h b) <= y < h_next (b_h b1))).
    { intros b1 o. destruct (skip x) eqn:Ks.
      - intros E. injection E as <- <-. split; [now apply cpost_refl|]. intros y E. injection E as <-. split; [exact R|]. intros T. destruct t; try contradiction. inversion R; subst. rewrite (Sk _ Ks) in H0. discriminate.
      - destruct (f b x) as [[b2 y]|] eqn:Ef; [|discriminate]. intros E. injection E as <- <-. destruct (F b x t b2 y W R Ef) as (P & Y). split; [exact P|]. intros z. destruct (Z.eqb_spec y WG_ILLEGAL); [discriminate|]. intros E. injection E as <-. now apply Y. }
    destruct (if skip x then _ else _) as [[b1 o]|]; [|discriminate]. destruct (HD b1 o eq_refl) as (P1 & Y1). clear HD. destruct o as [y|].
    2:{ intros E. injection E as <- <-. split; [exact P1|discriminate]. }
    destruct (build_all skip f b1 xs) as [[b2 r2]|] eqn:E2; [|discriminate]. destruct (Y1 y eq_refl) as (B1 & T1). pose proof P1 as (_ & _ & W1 & X1).
    assert (Rs1 : reps (gof c (b_h b1)) xs ts') by (apply (reps_ext c (b_h b)); [now apply hext_rsub|exact Rs']).
    destruct (IH ts' b1 b2 r2 W1 Rs1 E2) as (P2 & Y2). pose proof P2 as (_ & _ & W2 & X2). pose proof (cpost_trans _ _ _ P1 P2) as P. destruct r2 as [ys2|]; intros E; injection E as <- <-; (split; [exact P|]); [|discriminate].
    intros ys E. injection E as <-. destruct (Y2 ys2 eq_refl) as (B2 & T2). split.
    + constructor; [|exact B2]. apply (rep_ext c (b_h b1)); [now apply hext_rsub|exact B1].
    + intros Tf. destruct (T1 (Forall_inv Tf)) as (D1 & L1). destruct (T2 (Forall_inv_tail Tf)) as (F2 & N2). destruct X1 as (X1 & _). destruct X2 as (X2 & _). split.
      * constructor; [split; [exact D1|lia]|]. apply (Forall_impl _ (fun z Hz => conj (proj1 Hz) (conj (Z.le_trans _ _ _ X1 (proj1 (proj2 Hz))) (proj2 (proj2 Hz)))) F2).
      * constructor; [|exact N2]. intros J. rewrite Forall_forall in F2. destruct (F2 y J). lia.
Qed.
Theorem copy_ok c bank : std (c_g c) -> forall n, cok c (wr_build_calc_term n c false false bank).
Proof.
  intros Sd. induction n as [|n IH]; intros b x t b' y W R; cbn [wr_build_calc_term]; [discriminate|]. cbn [orb]. destruct (isdatarec x) eqn:Dx; cbn [negb].
  - destruct (rep_rec_inv _ _ _ R Dx) as (fs & ts & -> & Rc & Lf & Rs). unfold record in Rc. cbn [gof g_rec] in Rc. rewrite Rc.
    destruct (wr_alloc (b_h b) (3 + Z.of_nat (length fs))) as [[h1 a]|] eqn:A.
    2:{ intros E. injection E as <- <-. split; [|easy]. destruct (fail_ok (b_h b) W). split; [reflexivity|]. split; [reflexivity|]. now split. }
    destruct (alloc_ok (b_h b) (3 + Z.of_nat (length fs)) h1 a W ltac:(lia) A) as (W1 & X1 & Ea & Nx & Rr & Rl). clear A.
    set (b1 := Bst h1 (b_u b) (b_vc b)) in *. rewrite (std_slice (gof c (b_h b)) fs Sd). change (args (gof c (b_h b)) fs) with (args (gof c (b_h b1)) fs).
    assert (Rs1 : reps (gof c (b_h b1)) (args (gof c (b_h b1)) fs) ts) by (apply (reps_ext c (b_h b)); [now apply hext_rsub|exact Rs]).
    destruct (build_all _ _ b1 _) as [[b2 r]|] eqn:E2; [|discriminate].
    destruct (copy_all_ok c (fun z => negb false && negb (isdatarec z)) _ (fun z Hz => proj1 (negb_true_iff _) Hz) IH _ ts b1 b2 r W1 Rs1 E2) as (P2 & Y2). pose proof P2 as (U2 & V2 & W2 & X2).
    destruct r as [ys|]; intros E; injection E as <- <-.
    2:{ split; [|easy]. split; [exact U2|]. split; [exact V2|]. split; [exact W2|]. now apply (hext_trans _ h1). }
    destruct (Y2 ys eq_refl) as (B2 & _).
    assert (Lim : limit (gof c (b_h b)) (Z.of_nat (length fs)) = Z.of_nat (length fs)) by (unfold limit; cbn [gof g_maxuse]; destruct Sd as (_ & -> & _); reflexivity).
    rewrite Lim, Nat2Z.id, skipn_all, app_nil_r. set (ns := firstn _ fs ++ ys).
    destruct (write_ok (b_h b) h1 (b_h b2) a ns (h_rule (b_h b) (decode_datarec_offset x)) W W2 Ea X1 ltac:(lia) Rr X2) as (W3 & X3 & S3).
    assert (AY : isdatarec (encode_datarec_offset a) = true).
    { unfold isdatarec, encode_datarec_offset. rewrite land7. apply Z.eqb_eq. destruct W as (_ & M & _). lia. }
    split; [split; [exact U2|]; split; [exact V2|]; now split|]. intros _. split.
    + apply (rep_rec _ _ ns); [exact AY| | |].
      * unfold record, decode_datarec_offset, encode_datarec_offset. cbn [gof g_rec b_write b_h h_write h_rec]. now rewrite Z.eqb_refl.
      * unfold ns. rewrite app_length, firstn_length. destruct Sd as (_ & _ & F0). cbn [gof g_first] in *. lia.
      * unfold args. cbn [gof g_first] in *. unfold ns. assert (LF : length (firstn (Z.to_nat (g_first (c_g c))) fs) = Z.to_nat (g_first (c_g c))) by (rewrite firstn_length; destruct Sd as (_ & _ & F0); lia).
        rewrite skipn_app, LF, Nat.sub_diag, skipn_O, skipn_all2 by (rewrite LF; lia). cbn [app]. now apply (reps_ext c (b_h b2)).
    + intros _. split; [exact AY|]. unfold encode_datarec_offset. destruct X2 as (L2 & _). cbn [b_write b_h h_write h_next]. cbn [b_h b1] in *. lia.
  - assert (NT : isTF t -> False) by (destruct t; try easy; inversion R; subst; congruence).
    replace (if negb (isvar x) || true then _ else _) with (Some (b, x)) by now rewrite orb_true_r. intros E. injection E as <- <-. split; [now apply cpost_refl|]. intros _. split; [exact R|]. intros T. now contradiction (NT T).
Qed.
