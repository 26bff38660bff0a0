(** Clauses of the reasoner: building, subsumption, resolution and the main loop
    (Reasoner/build.c, subsume.c, derive.c, clstore.c, rgenloop.c). [None] stands for
    undefined behaviour or exhausted fuel. Computable functions are switched off
    (use_comp_funs_strat = 0), printing is left out. *)
From Coq Require Import ZArith List Bool.
From Verif Require Import Base EncodingModel CompareModel UnistrModel UnifyModel.
Import ListNotations.
Open Scope Z_scope.

(** Reasoner/glb.h l.47-49. *)
Definition NROF_VARSINBANK := 1000.
(** Reasoner/glb.h l.49. *)
Definition FIRST_UNREAL_VAR_NR := 4000.
(** Reasoner/clterm.h l.77 [ATOM_META_NEG] = encode_smallint(1). *)
Definition ATOM_META_NEG := 11.
(** Db/dballoc.h l.522-524. *)
Definition ACONST_FALSE := encode_anonconst 0.
(** Db/dballoc.h l.522-524. *)
Definition ACONST_TRUE := encode_anonconst 1.

(** The settings of Reasoner/glb.c l.105-122 that are used, and the hash of the function
    symbol of an atom (Reasoner/clstore.c l.691-715 [wr_atom_funhash]). *)
Record cfg := Cfg { c_g : genv; c_hyper : bool; c_neg : bool; c_pos : bool; c_hash : (Z -> option (list Z)) -> Z -> Z }.
(** Records: the fields, the header bit RECORD_META_RULE_CLAUSE, the next free place, the
    end of the space and g->alloc_err. The buffers of Reasoner/glb.h l.96-104 are one
    space here; a place once given out is not given out again. *)
Record heap := Heap { h_rec : Z -> option (list Z); h_rule : Z -> bool; h_next : Z; h_lim : Z; h_err : bool }.
(** The state used while building: g->varbanks and g->varstack, g->build_rename_vc (Reasoner/glb.h l.90-93, l.171). *)
Record bst := Bst { b_h : heap; b_u : ust; b_vc : Z }.
(** The environment for unification (Reasoner/glb.h l.84-130). *)
Definition gof (c : cfg) (h : heap) : genv := Genv (g_db (c_g c)) (h_rec h) (g_samelen (c_g c)) (g_maxuse (c_g c)) (g_first (c_g c)).

(** Reasoner/mem.c l.267-288 [wr_alloc_from_cvec]. *)
Definition wr_alloc (h : heap) (gints : Z) : option (heap * Z) :=
  if h_next h + 8 * gints <? h_lim h then Some (Heap (h_rec h) (h_rule h) (h_next h + 8 * gints) (h_lim h) (h_err h), h_next h) else None.
(** g->alloc_err=1 (Reasoner/build.c l.151; Reasoner/derive.c l.96, l.151, l.165, l.178). *)
Definition h_fail (h : heap) : heap := Heap (h_rec h) (h_rule h) (h_next h) (h_lim h) true.
(** The same in the state used while building (Reasoner/build.c l.151). *)
Definition b_fail (b : bst) : bst := Bst (h_fail (b_h b)) (b_u b) (b_vc b).
(** Fields and header written to a record (Reasoner/build.c l.181-208). *)
Definition h_write (h : heap) (y : Z) (fs : list Z) (rule : bool) : heap := Heap (fun z => if z =? y then Some fs else h_rec h z) (fun z => if z =? y then rule else h_rule h z) (h_next h) (h_lim h) (h_err h).
(** The same in the state used while building (Reasoner/build.c l.181-208). *)
Definition b_write (b : bst) (y : Z) (fs : list Z) (rule : bool) : bst := Bst (h_write (b_h b) y fs rule) (b_u b) (b_vc b).

(** The loops over fields (Reasoner/build.c l.193-201) and literals (l.102-109): a field
    for which [skip] holds is copied; the inner [None] when a term could not be built. *)
Fixpoint build_all (skip : Z -> bool) (f : bst -> Z -> option (bst * Z)) (b : bst) (l : list Z) : option (bst * option (list Z)) :=
  match l with
  | [] => Some (b, Some [])
  | x :: r =>
      match (if skip x then Some (b, Some x) else match f b x with None => None | Some (b, y) => Some (b, if y =? WG_ILLEGAL then None else Some y) end) with
      | None => None
      | Some (b, None) => Some (b, None)
      | Some (b, Some y) => match build_all skip f b r with None => None | Some (b, None) => Some (b, None) | Some (b, Some ys) => Some (b, Some (y :: ys)) end
      end
  end.
(** Reasoner/build.c l.128-217 [wr_build_calc_term]: [subst] and [rename] are
    g->build_subst and g->build_rename, [bank] is g->build_rename_banknr. *)
Fixpoint wr_build_calc_term (n : nat) (c : cfg) (subst rename : bool) (bank : Z) (b : bst) (x : Z) : option (bst * Z) :=
  match n with
  | O => None
  | S n' =>
      match (if subst || rename then value n' (u_vb (b_u b)) x else Some x) with
      | None => None
      | Some x =>
          if negb (isdatarec x) then
            if negb (isvar x) || negb rename then Some (b, x)
            else
              let vnr := decode_var x in
              if vnr <? FIRST_UNREAL_VAR_NR then
                if NROF_VARSINBANK <=? b_vc b then Some (b_fail b, WG_ILLEGAL)
                else Some (Bst (b_h b) (setvar (b_u b) x (encode_var (b_vc b + FIRST_UNREAL_VAR_NR))) (b_vc b + 1), encode_var (bank * NROF_VARSINBANK + b_vc b))
              else Some (b, encode_var (bank * NROF_VARSINBANK + (vnr - FIRST_UNREAL_VAR_NR)))
          else
            match h_rec (b_h b) (decode_datarec_offset x) with
            | None => None
            | Some fs =>
                let xlen := Z.of_nat (length fs) in
                match wr_alloc (b_h b) (3 + xlen) with
                | None => Some (b_fail b, WG_ILLEGAL)
                | Some (h, y) =>
                    let lim := limit (gof c (b_h b)) xlen in
                    match build_all (fun z => negb (subst || rename) && negb (isdatarec z)) (wr_build_calc_term n' c subst rename bank) (Bst h (b_u b) (b_vc b)) (slice (gof c (b_h b)) lim fs) with
                    | None => None
                    | Some (b', None) => Some (b', WG_ILLEGAL)
                    | Some (b', Some ys) =>
                        Some (b_write b' y (firstn (Z.to_nat (g_first (c_g c))) fs ++ ys ++ skipn (Z.to_nat lim) fs) (h_rule (b_h b) (decode_datarec_offset x)), encode_datarec_offset y)
                    end
                end
            end
      end
  end.

(** Reasoner/clterm.h l.98-104: the literals (meta, atom) of a rule clause; a fact clause
    is its own positive atom. *)
Fixpoint literals (fs : list Z) : list (Z * Z) := match fs with m :: a :: r => (m, a) :: literals r | _ => [] end.
(** Reasoner/clterm.h l.93, l.98-104; Reasoner/derive.c l.79-84. *)
Definition clause_lits (h : heap) (cl : Z) : option (list (Z * Z)) :=
  if h_rule h cl then match h_rec h cl with None => None | Some fs => Some (literals (skipn 1 fs)) end else Some [(0, encode_datarec_offset cl)].
(** Reasoner/clterm.h l.101 [wg_atom_meta_is_neg]. *)
Definition is_neg (meta : Z) : bool := negb (Z.land meta ATOM_META_NEG =? 0).
(** Reasoner/clterm.h l.102 [litmeta_negpolarities]. *)
Definition negpol (m1 m2 : Z) : bool := negb (Z.land m1 ATOM_META_NEG =? Z.land m2 ATOM_META_NEG).
(** The fields of literals (Reasoner/clterm.h l.98-99). *)
Definition flat (l : list (Z * Z)) : list Z := flat_map (fun p => [fst p; snd p]) l.

(** Reasoner/build.c l.64-114 [wr_build_calc_cl], with g->build_rename set; the inner
    [None] when the clause could not be built. *)
Definition wr_build_calc_cl (n : nat) (c : cfg) (bank : Z) (b : bst) (cl : Z) : option (bst * option Z) :=
  let b := Bst (b_h b) (b_u b) 0 in
  if negb (h_rule (b_h b) cl) then
    match wr_build_calc_term n c false true bank b (encode_datarec_offset cl) with
    | None => None
    | Some (b, y) => if y =? WG_ILLEGAL then Some (b, None) else Some (b, Some (decode_datarec_offset y))
    end
  else
    match h_rec (b_h b) cl, clause_lits (b_h b) cl with
    | Some fs, Some ls =>
        match wr_alloc (b_h b) (3 + Z.of_nat (length fs)) with
        | None => Some (b_fail b, None)
        | Some (h, y) =>
            match build_all (fun _ => false) (wr_build_calc_term n c false true bank) (Bst h (b_u b) 0) (map snd ls) with
            | None => None
            | Some (b', None) => Some (b', None)
            | Some (b', Some ys) => Some (b_write b' y (firstn 1 fs ++ flat (combine (map fst ls) ys)) true, Some y)
            end
        end
    | _, _ => None
    end.

(** Reasoner/subsume.c l.299: an entry of g->tmp_litinf_vec is set. *)
Fixpoint set_nth (i : nat) (l : list bool) : list bool :=
  match l, i with [], _ => [] | _ :: r, O => true :: r | a :: r, S i => a :: set_nth i r end.
(** Reasoner/subsume.c l.260-330 [wr_subsume_cl_aux]: [used] is g->tmp_litinf_vec. *)
Fixpoint wr_subsume_cl_aux (n : nat) (g : genv) (ls1 ls2 : list (Z * Z)) (used : list bool) (st : ust) {struct ls1} : option (ust * bool) :=
  match ls1 with
  | [] => Some (st, false)
  | (m1, a1) :: r1 =>
      (fix loop (l2 : list (nat * (Z * Z))) (st : ust) : option (ust * bool) :=
         match l2 with
         | [] => Some (st, false)
         | (i, (m2, a2)) :: r2 =>
             if nth i used true || negpol m1 m2 then loop r2 st
             else
               match wr_match_term_aux n g true st a1 a2 with
               | None => None
               | Some (st1, true) =>
                   let same := (length (u_stk st) =? length (u_stk st1))%nat in
                   match (match r1 with [] => Some (st1, true) | _ => wr_subsume_cl_aux n g r1 ls2 (set_nth i used) st1 end) with
                   | None => None
                   | Some (st2, true) => Some (st2, true)
                   | Some (st2, false) =>
                       let st3 := wr_clear_varstack_topslice st2 (length (u_stk st)) in
                       if same then Some (st3, false) else loop r2 st3
                   end
               | Some (st1, false) => loop r2 (wr_clear_varstack_topslice st1 (length (u_stk st)))
               end
         end) (combine (seq 0 (length ls2)) ls2) st
  end.
(** The loop of Reasoner/subsume.c l.210-219 over the literals of the second clause. *)
Fixpoint unit_loop (n : nat) (g : genv) (m1 a1 : Z) (ls2 : list (Z * Z)) (st : ust) : option (ust * bool) :=
  match ls2 with
  | [] => Some (st, false)
  | (m2, a2) :: r =>
      if negpol m1 m2 then unit_loop n g m1 a1 r st
      else match wr_match_term_aux n g true st a1 a2 with
           | None => None
           | Some (st, true) => Some (wr_clear_varstack st, true)
           | Some (st, false) => unit_loop n g m1 a1 r (wr_clear_varstack st)
           end
  end.
(** The loop of Reasoner/subsume.c l.163-168. *)
Fixpoint fact_loop (n : nat) (g : genv) (a1 : Z) (ls2 : list (Z * Z)) : option bool :=
  match ls2 with
  | [] => Some false
  | (m2, a2) :: r => if is_neg m2 then fact_loop n g a1 r else match wr_equal_term n g true a1 a2 with None => None | Some true => Some true | Some false => fact_loop n g a1 r end
  end.
(** Reasoner/subsume.c l.130-238 [wr_subsume_cl] with uniquestrflag 1. *)
Definition wr_subsume_cl (n : nat) (c : cfg) (h : heap) (st : ust) (cl1 cl2 : Z) : option (ust * bool) :=
  let g := gof c h in
  match clause_lits h cl1, clause_lits h cl2 with
  | Some ls1, Some ls2 =>
      if negb (h_rule h cl1) then
        if negb (h_rule h cl2) then match wr_equal_term n g true (encode_datarec_offset cl1) (encode_datarec_offset cl2) with None => None | Some b => Some (st, b) end
        else match fact_loop n g (encode_datarec_offset cl1) ls2 with None => None | Some b => Some (st, b) end
      else if negb (h_rule h cl2) then
        match ls1 with
        | [(m1, a1)] =>
            if is_neg m1 then Some (st, false)
            else match wr_match_term_aux n g true st a1 (encode_datarec_offset cl2) with None => None | Some (st, b) => Some (wr_clear_varstack st, b) end
        | [] => None
        | _ => Some (st, false)
        end
      else
        match ls1 with
        | [(m1, a1)] => unit_loop n g m1 a1 ls2 st
        | _ =>
            if (length ls2 <? length ls1)%nat then Some (st, false)
            else match wr_subsume_cl_aux n g ls1 ls2 (map (fun _ => false) ls2) st with None => None | Some (st, b) => Some (wr_clear_varstack st, b) end
        end
  | _, _ => None
  end.
(** Reasoner/subsume.c l.64-100 [wr_given_cl_subsumed]. *)
Fixpoint wr_given_cl_subsumed (n : nat) (c : cfg) (h : heap) (st : ust) (active : list Z) (given : Z) : option (ust * bool) :=
  match active with
  | [] => Some (st, false)
  | cl :: r => match wr_subsume_cl n c h st cl given with None => None | Some (st, true) => Some (st, true) | Some (st, false) => wr_given_cl_subsumed n c h st r given end
  end.

(** Reasoner/glb.h: g->clqueue and g->clqueue_given, g->clactive, g->hash_pos_atoms and
    g->hash_neg_atoms (bucket, atom, clause), g->build_buffer, the number of buffers made,
    the buffers freed, g->proof_found (l.74-104, l.167). *)
Record rst := Rst { r_h : heap; r_u : ust; r_queue : list Z; r_given : nat; r_active : list Z;
  r_pos : list (Z * (Z * Z)); r_neg : list (Z * (Z * Z)); r_buf : Z; r_nbuf : Z; r_freed : list Z; r_proof : bool }.
(** The buffers g->derived_termbuf, g->queue_termbuf, g->given_termbuf, g->active_termbuf (Reasoner/glb.h l.101-104). *)
Definition DERIVED := 1.
(** Reasoner/glb.h l.96-104. *)
Definition QUEUE := 2.
(** Reasoner/glb.h l.96-104. *)
Definition GIVEN := 3.
(** Reasoner/glb.h l.96-104. *)
Definition ACTIVE := 4.
(** A state with other memory, other variable values, another build buffer
    (Reasoner/derive.c l.253-312). *)
Definition with_b (st : rst) (h : heap) (u : ust) (buf : Z) : rst :=
  Rst h u (r_queue st) (r_given st) (r_active st) (r_pos st) (r_neg st) buf (r_nbuf st) (r_freed st) (r_proof st).
(** g->proof_found=1 (Reasoner/derive.c l.89, l.122). *)
Definition with_proof (st : rst) : rst :=
  Rst (r_h st) (r_u st) (r_queue st) (r_given st) (r_active st) (r_pos st) (r_neg st) (r_buf st) (r_nbuf st) (r_freed st) true.
(** Reasoner/clstore.c l.92-98 [wr_push_clqueue_cl]. *)
Definition wr_push_clqueue_cl (st : rst) (cl : Z) : rst :=
  Rst (r_h st) (r_u st) (r_queue st ++ [cl]) (r_given st) (r_active st) (r_pos st) (r_neg st) (r_buf st) (r_nbuf st) (r_freed st) (r_proof st).
(** Reasoner/derive.c l.139 [wr_cvec_new]. *)
Definition new_buffer (st : rst) : rst :=
  Rst (r_h st) (r_u st) (r_queue st) (r_given st) (r_active st) (r_pos st) (r_neg st) (r_nbuf st) (r_nbuf st + 1) (r_freed st) (r_proof st).
(** Reasoner/derive.c l.203-204 [wr_vec_free] of g->build_buffer, which is then set back. *)
Definition free_buffer (st : rst) (stored : Z) : rst :=
  Rst (r_h st) (r_u st) (r_queue st) (r_given st) (r_active st) (r_pos st) (r_neg st) stored (r_nbuf st) (r_buf st :: r_freed st) (r_proof st).

(** Reasoner/derive.c l.350-370: the search for an equal atom: [Some true] the literal is
    there, [Some false] the opposite one. *)
Fixpoint find_dup (n : nat) (g : genv) (meta atom : Z) (acc : list (Z * Z)) : option (option bool) :=
  match acc with
  | [] => Some None
  | (rmeta, ratom) :: r =>
      match wr_equal_term n g true atom ratom with
      | None => None
      | Some true => Some (Some (negb (negpol meta rmeta)))
      | Some false => find_dup n g meta atom r
      end
  end.
(** Reasoner/derive.c l.315-381 [wr_process_resolve_result_aux]: the literals stored so
    far, the inner [None] when the clause is dropped. *)
Fixpoint wr_process_resolve_result_aux (n : nat) (c : cfg) (b : bst) (ls : list (Z * Z)) (cutatom : Z) (acc : list (Z * Z)) : option (bst * option (list (Z * Z))) :=
  match ls with
  | [] => Some (b, Some acc)
  | (meta, atom) :: r =>
      if atom =? cutatom then wr_process_resolve_result_aux n c b r cutatom acc
      else
        match wr_build_calc_term n c true true 3 b atom with
        | None => None
        | Some (b, newatom) =>
            if newatom =? WG_ILLEGAL then Some (b_fail b, None)
            else if newatom =? ACONST_TRUE then (if is_neg meta then wr_process_resolve_result_aux n c b r cutatom acc else Some (b, None))
            else if newatom =? ACONST_FALSE then (if is_neg meta then Some (b, None) else wr_process_resolve_result_aux n c b r cutatom acc)
            else
              match find_dup n (gof c (b_h b)) meta newatom acc with
              | None => None
              | Some (Some true) => wr_process_resolve_result_aux n c b r cutatom acc
              | Some (Some false) => Some (b, None)
              | Some None => wr_process_resolve_result_aux n c b r cutatom (acc ++ [(meta, newatom)])
              end
        end
  end.
(** Reasoner/derive.c l.270-276 [wr_process_resolve_result_cleanupsubst]. *)
Definition cleanupsubst (b : bst) : ust :=
  Ust (fun v => if (3 * NROF_VARSINBANK <=? v) && (v <? 3 * NROF_VARSINBANK + b_vc b) then UNASSIGNED else u_vb (b_u b) v) (u_stk (b_u b)).
(** Reasoner/derive.c l.219-251 [wr_process_resolve_result_isrulecl]; [None] when the atom
    is not a record in memory. *)
Definition isrulecl (c : cfg) (h : heap) (acc : list (Z * Z)) : option bool :=
  match acc with
  | [(meta, atom)] =>
      if isdatarec atom && negb (is_neg meta) then
        match h_rec h (decode_datarec_offset atom) with
        | None => None
        | Some fs => Some (existsb (fun t => isdatarec t || isvar t) (skipn (Z.to_nat (g_first (c_g c))) fs))
        end
      else Some true
  | _ => Some true
  end.
(** Reasoner/derive.c l.418-431 [wr_hyperres_satellite_tmpres]. *)
Definition satellite_tmpres (c : cfg) (acc : list (Z * Z)) : bool := forallb (fun p => negb (if is_neg (fst p) then c_neg c else c_pos c)) acc.
(** Reasoner/derive.c l.388-411 [wr_hyperres_satellite_cl]. *)
Definition satellite_cl (c : cfg) (h : heap) (cl : Z) : option bool :=
  if negb (h_rule h cl) then Some (c_neg c) else match clause_lits h cl with None => None | Some ls => Some (satellite_tmpres c ls) end.
(** Reasoner/derive.c l.144-184: the clause is built from the literals, the inner [None]
    when there is no space. *)
Definition build_result (n : nat) (c : cfg) (b : bst) (rule : bool) (acc : list (Z * Z)) : option (bst * option Z) :=
  if rule then
    match wr_alloc (b_h b) (3 + (1 + 2 * Z.of_nat (length acc))) with
    | None => Some (b_fail b, None)
    | Some (h, y) =>
        match build_all (fun _ => false) (wr_build_calc_term n c false false 0) (Bst h (b_u b) (b_vc b)) (map snd acc) with
        | None => None
        | Some (b', None) => Some (b_fail b', None)
        | Some (b', Some ys) => Some (b_write b' y (0 :: flat (combine (map fst acc) ys)) true, Some y)
        end
    end
  else
    match acc with
    | (meta, atom) :: _ =>
        match wr_build_calc_term n c false false 0 b atom with
        | None => None
        | Some (b', y) =>
            if y =? WG_ILLEGAL then Some (b_fail b', None)
            else match h_rec (b_h b') (decode_datarec_offset y) with
                 | None => None
                 | Some fs => Some (b_write b' (decode_datarec_offset y) fs false, Some (decode_datarec_offset y))
                 end
        end
    | [] => None
    end.
(** Reasoner/derive.c l.53-215 [wr_process_resolve_result]; [rec] is the call of
    wr_resolve_binary_all_active on l.201. *)
Definition wr_process_resolve_result (n : nat) (c : cfg) (rec : rst -> Z -> option rst) (st : rst) (xatom xcl yatom ycl : Z) : option rst :=
  match clause_lits (r_h st) xcl, clause_lits (r_h st) ycl with
  | Some xls, Some yls =>
      let xn := Z.of_nat (length xls) in
      let yn := Z.of_nat (length yls) in
      if xn + yn - 2 =? 0 then Some (with_proof st)
      else
        match wr_alloc (r_h st) (2 * (xn + yn - 2)) with
        | None => Some (with_b st (h_fail (r_h st)) (r_u st) (r_buf st))
        | Some (h0, _) =>
            match (if 1 <? xn then wr_process_resolve_result_aux n c (Bst h0 (r_u st) 0) xls xatom [] else Some (Bst h0 (r_u st) 0, Some [])) with
            | None => None
            | Some (b1, None) => Some (with_b st (b_h b1) (cleanupsubst b1) DERIVED)
            | Some (b1, Some acc1) =>
                match (if 1 <? yn then wr_process_resolve_result_aux n c b1 yls yatom acc1 else Some (b1, Some acc1)) with
                | None => None
                | Some (b2, None) => Some (with_b st (b_h b2) (cleanupsubst b2) DERIVED)
                | Some (b2, Some acc) =>
                    let st2 := with_b st (b_h b2) (cleanupsubst b2) DERIVED in
                    match acc with
                    | [] => Some (with_proof st2)
                    | _ =>
                        let partial := c_hyper c && negb (satellite_tmpres c acc) in
                        let st3 := if partial then new_buffer st2 else with_b st2 (r_h st2) (r_u st2) QUEUE in
                        match isrulecl c (r_h st3) acc with
                        | None => None
                        | Some rule =>
                            match build_result n c (Bst (r_h st3) (r_u st3) 0) rule acc with
                            | None => None
                            | Some (b4, None) => Some (with_b st3 (b_h b4) (b_u b4) (r_buf st3))
                            | Some (b4, Some res) =>
                                match satellite_cl c (b_h b4) res with
                                | None => None
                                | Some sat =>
                                    if c_hyper c && negb sat then
                                      if partial then
                                        match rec (with_b st3 (b_h b4) (wr_clear_varstack (b_u b4)) (r_buf st3)) res with
                                        | None => None
                                        | Some st5 => Some (free_buffer st5 DERIVED)
                                        end
                                      else None
                                    else Some (wr_push_clqueue_cl (with_b st3 (b_h b4) (b_u b4) (r_buf st3)) res)
                                end
                            end
                        end
                    end
                end
            end
        end
  | _, _ => None
  end.

(** Reasoner/rgenloop.c l.352-378 and Reasoner/clstore.c l.305-329: which signs may be used. *)
Definition pos_ok (c : cfg) (rule : bool) (ls : list (Z * Z)) : bool :=
  negb (rule && c_neg c && existsb (fun p => is_neg (fst p)) ls && existsb (fun p => negb (is_neg (fst p))) ls).
(** Reasoner/rgenloop.c l.352-378 and Reasoner/clstore.c l.305-329. *)
Definition neg_ok (c : cfg) (rule : bool) (ls : list (Z * Z)) : bool :=
  negb (rule && c_pos c && existsb (fun p => is_neg (fst p)) ls && existsb (fun p => negb (is_neg (fst p))) ls).
(** Reasoner/clstore.c l.337-393: the atoms of a clause are added to the lists. *)
Fixpoint store_lits (c : cfg) (rule posok negok : bool) (cl : Z) (negadded : bool) (ls : list (Z * Z)) (st : rst) : rst :=
  match ls with
  | [] => st
  | (meta, atom) :: r =>
      let neg := rule && is_neg meta in
      if negb rule || negb (c_neg c || c_pos c) || (neg && c_hyper c) || (negok && neg && negb negadded) || (posok && negb neg) then
        let node := (c_hash c (h_rec (r_h st)) atom, (atom, cl)) in
        store_lits c rule posok negok cl (negadded || neg) r
          (if neg then Rst (r_h st) (r_u st) (r_queue st) (r_given st) (r_active st) (r_pos st) (node :: r_neg st) (r_buf st) (r_nbuf st) (r_freed st) (r_proof st)
           else Rst (r_h st) (r_u st) (r_queue st) (r_given st) (r_active st) (node :: r_pos st) (r_neg st) (r_buf st) (r_nbuf st) (r_freed st) (r_proof st))
      else store_lits c rule posok negok cl negadded r st
  end.
(** Reasoner/clstore.c l.117-125 [wr_push_clactive_cl], l.272-396 [wr_cl_store_res_terms]. *)
Definition wr_push_clactive_cl (c : cfg) (st : rst) (cl : Z) : option rst :=
  match clause_lits (r_h st) cl with
  | None => None
  | Some ls =>
      let rule := h_rule (r_h st) cl in
      Some (store_lits c rule (pos_ok c rule ls) (neg_ok c rule ls) cl false ls
        (Rst (r_h st) (r_u st) (r_queue st) (r_given st) (r_active st ++ [cl]) (r_pos st) (r_neg st) (r_buf st) (r_nbuf st) (r_freed st) (r_proof st)))
  end.

(** Reasoner/rgenloop.c l.461-524: the candidates for one atom; [true] when the search stops. *)
Fixpoint node_loop (n : nat) (c : cfg) (rec : rst -> Z -> option rst) (xatom xcl : Z) (nodes : list (Z * (Z * Z))) (st : rst) : option (rst * bool) :=
  match nodes with
  | [] => Some (st, false)
  | (_, (yatom, ycl)) :: r =>
      match wr_unify_term n (gof c (r_h st)) true (r_u st) xatom yatom with
      | None => None
      | Some (u, false) => node_loop n c rec xatom xcl r (with_b st (r_h st) (wr_clear_varstack u) (r_buf st))
      | Some (u, true) =>
          match wr_process_resolve_result n c rec (with_b st (r_h st) u (r_buf st)) xatom xcl yatom ycl with
          | None => None
          | Some st =>
              let st := with_b st (r_h st) (wr_clear_varstack (r_u st)) (r_buf st) in
              if r_proof st || h_err (r_h st) then Some (st, true) else node_loop n c rec xatom xcl r st
          end
      end
  end.
(** Reasoner/rgenloop.c l.392-528: the literals of the clause. *)
Fixpoint lit_loop (n : nat) (c : cfg) (rec : rst -> Z -> option rst) (rule posok negok : bool) (cl : Z) (negadded : bool) (ls : list (Z * Z)) (st : rst) : option rst :=
  match ls with
  | [] => Some st
  | (meta, atom) :: r =>
      let neg := rule && is_neg meta in
      if negb rule || negb (c_neg c || c_pos c) || (negok && neg && negb negadded) || (posok && negb neg) then
        let hash := c_hash c (h_rec (r_h st)) atom in
        match node_loop n c rec atom cl (filter (fun p => fst p =? hash) (if neg then r_pos st else r_neg st)) st with
        | None => None
        | Some (st, true) => Some st
        | Some (st, false) => lit_loop n c rec rule posok negok cl (negadded || neg) r st
        end
      else lit_loop n c rec rule posok negok cl negadded r st
  end.
(** Reasoner/rgenloop.c l.319-532 [wr_resolve_binary_all_active]. *)
Fixpoint wr_resolve_binary_all_active (n : nat) (c : cfg) (st : rst) (cl : Z) : option rst :=
  match n with
  | O => None
  | S n' =>
      match clause_lits (r_h st) cl with
      | None => None
      | Some ls =>
          let rule := h_rule (r_h st) cl in
          lit_loop n' c (wr_resolve_binary_all_active n' c) rule (pos_ok c rule ls) (neg_ok c rule ls) cl false ls st
      end
  end.
(** Reasoner/rgenloop.c l.240-261 [wr_process_given_cl], l.263-289
    [wr_add_given_cl_active_list]: the clause is built anew with the variables of a bank. *)
Definition rebuild (n : nat) (c : cfg) (bank buf : Z) (st : rst) (cl : Z) : option (rst * option Z) :=
  match wr_build_calc_cl n c bank (Bst (r_h st) (r_u st) 0) cl with
  | None => None
  | Some (b, r) => Some (with_b st (b_h b) (wr_clear_varstack (b_u b)) buf, r)
  end.
(** Reasoner/rgenloop.c l.74-200 [wr_genloop]: the result is 0 for a proof, 1 when there are
    no more clauses, -1 for an allocation error. *)
Fixpoint wr_genloop (n : nat) (c : cfg) (st : rst) : option (rst * Z) :=
  match n with
  | O => None
  | S n' =>
      if h_err (r_h st) then Some (st, -1)
      else
        match nth_error (r_queue st) (r_given st) with
        | None => Some (st, 1)
        | Some cand =>
            let st := Rst (r_h st) (r_u st) (r_queue st) (S (r_given st)) (r_active st) (r_pos st) (r_neg st) (r_buf st) (r_nbuf st) (r_freed st) (r_proof st) in
            match wr_given_cl_subsumed n' c (r_h st) (r_u st) (r_active st) cand with
            | None => None
            | Some (u, true) => wr_genloop n' c (with_b st (r_h st) u (r_buf st))
            | Some (u, false) =>
                match rebuild n' c 1 GIVEN (with_b st (r_h st) u (r_buf st)) cand with
                | None => None
                | Some (st, None) => if h_err (r_h st) then Some (st, -1) else wr_genloop n' c st
                | Some (st, Some given) =>
                    match rebuild n' c 2 ACTIVE st given with
                    | None => None
                    | Some (st, None) => if h_err (r_h st) then Some (st, -1) else wr_genloop n' c st
                    | Some (st, Some act) =>
                        match wr_push_clactive_cl c st act with
                        | None => None
                        | Some st =>
                            match wr_resolve_binary_all_active n' c st given with
                            | None => None
                            | Some st => if r_proof st then Some (st, 0) else if h_err (r_h st) then Some (st, -1) else wr_genloop n' c st
                            end
                        end
                    end
                end
            end
        end
  end.
(** Reasoner/rmain.c l.146-173 [wr_init_active_passive_lists_std] and the start of wr_genloop
    (Reasoner/rgenloop.c l.94, l.117-119): the clauses of the database in the queue. *)
Definition wr_start (h : heap) (cls : list Z) : rst := Rst h (Ust (fun _ => UNASSIGNED) []) cls 0 [] [] [] 0 5 [] false.
