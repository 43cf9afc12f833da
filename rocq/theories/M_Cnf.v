(** apps/cnf2ztdd2bdd: reading a CNF, the specification CnfToZtdd, the evaluator ZtddToCudd and the program. *)
From stdpp Require Import sorting.
From Verif Require Import Base Sem M_Table M_Engine M_Builder M_Eval Props_Reduce S_Api.
Local Open Scope Z_scope.

(** CnfToZtddState::Clause (CnfToZtdd.hpp 36): std::vector<int> *)
Notation clause := (list Z) (only parsing).

(** ** reading *)
(** VarCmp (CnfToZtdd.hpp 99-110), the result; the flag is [tautological] *)
Definition var_cmp (a b : Z) : bool := Z.abs a <? Z.abs b.
(** The flag that VarCmp sets when two opposite literals are compared.  Any sort by comparisons compares some literal of a
    variable with some opposite one if both occur: otherwise all comparisons would come out in the same way with
    the ones moved in front of or behind the others, and the sort could not tell the orders apart. *)
Definition tautological (c : clause) : bool := existsb (fun x => existsb (fun y => x =? - y) c) c.
(** std::sort with a comparison that returns "a is before b": some ordered permutation.  The elements that the code
    sorts are equal if neither is before the other, so there is only one. *)
Definition std_sort {A} (before : A -> A -> bool) (l : list A) : list A := @merge_sort A (fun a b => before b a = false) (fun a b => bool_eq_dec (before b a) false) l.
(** std::unique *)
Fixpoint std_unique {A} (eq : A -> A -> bool) (l : list A) : list A :=
  match l with
  | a :: (b :: _) as l' => if eq a b then std_unique eq l' else a :: std_unique eq l'
  | _ => l
  end.
(** the loop of readDimacs (CnfToZtdd.cpp 71-95): one value of x; the state is c, cnf and mm.  [None]: an exception.  The literal
    INT_MIN, whose absolute value is undefined, is treated as out of range. *)
Definition read_literal (nv nc : nat) (st : clause * list clause * nat) (x : Z) : option (clause * list clause * nat) :=
  let '(c, cnf, mm) := st in
  if x =? 0 then
    match c with
    | [] => Some st
    | _ => Some ([], if tautological c then cnf else cnf ++ [std_unique Z.eqb (std_sort var_cmp c)], S mm)
    end
  else if Z.of_nat nv <? Z.abs x then None
  else if (nc <=? mm)%nat then None
  else Some (c ++ [x], cnf, mm).
(** readDimacs (CnfToZtdd.cpp 53-107) after the header line, whose numbers are nv and nc.  [numbers] are the numbers of the rest of
    the input.  The loop stops only after a read has failed, and it then uses x, which has not been given a value: [junk]. *)
Definition read_dimacs (nv nc : nat) (numbers : list Z) (junk : Z) : option (list clause) :=
  if (nv <? 1)%nat || (nc <? 1)%nat then None else
  '(_, cnf, mm) ← ofold (read_literal nv nc) (numbers ++ [junk]) ([], [], 0%nat);
  if (mm <? nc)%nat then None else Some cnf.
(** ClauseCmp (CnfToZtdd.hpp 112-122) *)
Fixpoint clause_cmp (a b : clause) : bool :=
  match a, b with
  | x :: a', y :: b' =>
      if x =? - y then x <? y
      else if negb (Z.abs x =? Z.abs y) then Z.abs y <? Z.abs x
      else clause_cmp a' b'
  | _, _ => (length a <? length b)%nat
  end.
(** sortClauses (CnfToZtdd.cpp 109-116) *)
Definition sort_clauses (cnf : list clause) : list clause := std_unique (fun a b => bool_decide (a = b)) (std_sort clause_cmp cnf).
(** load (CnfToZtdd.hpp 93-96) *)
Definition load (nv nc : nat) (numbers : list Z) (junk : Z) : option (list clause) :=
  cnf ← read_dimacs nv nc numbers junk; Some (sort_clauses cnf).

(** ** the specification *)
(** CnfToZtddState (CnfToZtdd.hpp 35-44): beg and end are indices into cnf *)
Record cstate := CState { cs_beg : nat; cs_end : nat; cs_pos : nat }.
(** the clauses between two pointers *)
Definition between (cnf : list clause) (b e : nat) : list clause := take (e - b) (drop b cnf).
(** hash (CnfToZtdd.cpp 30-39) *)
Definition cs_hash (cnf : list clause) (s : cstate) : N :=
  foldl (fun h c => foldl (fun h x => (h + Z.to_N (x mod 2 ^ 64)) * 314159257 mod 2 ^ 64)%N h (drop (cs_pos s) c)) 0%N (between cnf (cs_beg s) (cs_end s)).
(** operator== (CnfToZtdd.cpp 41-51); all clauses have at least pos literals *)
Definition rest_eq (pos pos' : nat) (p q : clause) : bool :=
  (length p - pos =? length q - pos')%nat && forallb (fun i => bool_decide (p !! (pos + i)%nat = q !! (pos' + i)%nat)) (seq 0 (length p - pos)).
Fixpoint all_eq (pos pos' : nat) (ps qs : list clause) : bool :=
  match ps, qs with
  | p :: ps', q :: qs' => rest_eq pos pos' p q && all_eq pos pos' ps' qs'
  | _, _ => true
  end.
Definition cs_eq (cnf : list clause) (s o : cstate) : bool :=
  let ps := between cnf (cs_beg s) (cs_end s) in let qs := between cnf (cs_beg o) (cs_end o) in
  (length ps =? length qs)%nat && all_eq (cs_pos s) (cs_pos o) ps qs.
(** ClauseSearcher (CnfToZtdd.hpp 130-144) *)
Definition searcher (pos : nat) (a : clause) (b : Z) : bool :=
  match a !! pos with
  | None => true
  | Some x => if x =? - b then x <? b else Z.abs b <? Z.abs x
  end.
(** std::lower_bound on [first, first + count): binary search.  [None]: a clause outside of cnf is read (or the fuel, which is
    enough if it is at least count, has run out). *)
Fixpoint lower_bound (fuel : nat) (before : clause -> bool) (cnf : list clause) (first count : nat) : option nat :=
  match count, fuel with
  | O, _ => Some first
  | S _, O => None
  | S _, S fuel' =>
      let step := (count / 2)%nat in
      c ← cnf !! (first + step)%nat;
      if before c then lower_bound fuel' before cnf (S (first + step)) (count - S step) else lower_bound fuel' before cnf first step
  end.
Definition search (cnf : list clause) (pos b e : nat) (x : Z) : option nat :=
  lower_bound (e - b) (fun c => searcher pos c x) cnf b (e - b).
(** varAtLevel, levelOfVar (CnfToZtdd.hpp 58-71); [None]: an assertion fails *)
Definition var_at_level (nv : nat) (level : Z) : option Z :=
  if (1 <=? level) && (level <=? Z.of_nat nv) then Some (Z.of_nat nv - level + 1) else None.
Definition level_of_var (nv : nat) (var : Z) : option Z :=
  if (1 <=? var) && (var <=? Z.of_nat nv) then Some (Z.of_nat nv - var + 1) else None.
(** getRoot (CnfToZtdd.cpp 118-131); the state is not used if the result is not positive *)
Definition cn_root (nv : nat) (cnf : list clause) : option (Z * cstate) :=
  match cnf with
  | [] => Some (0, CState 0 0 0)
  | [[]] => Some (-1, CState 0 0 0)
  | _ =>
      c ← cnf !! (length cnf - 1)%nat;
      x ← c !! 0%nat;
      l ← level_of_var nv (Z.abs x);
      Some (l, CState 0 (length cnf) 0)
  end.
(** getChild (CnfToZtdd.cpp 133-161); [None]: an assertion fails or a clause or literal that does not exist is read *)
Definition cn_child (nv : nat) (cnf : list clause) (s : cstate) (level : Z) (value : nat) : option (Z * cstate) :=
  if (cs_end s <=? cs_beg s)%nat then None else
  v ← var_at_level nv level;
  s' ← match value with
       | 0%nat => e ← search cnf (cs_pos s) (cs_beg s) (cs_end s) (- v); Some (CState (cs_beg s) e (cs_pos s))
       | 1%nat => b ← search cnf (cs_pos s) (cs_beg s) (cs_end s) (- v);
                  e ← search cnf (cs_pos s) b (cs_end s) v;
                  Some (CState b e (S (cs_pos s)))
       | _ => b ← search cnf (cs_pos s) (cs_beg s) (cs_end s) v; Some (CState b (cs_end s) (S (cs_pos s)))
       end;
  if (cs_beg s' =? cs_end s')%nat then Some (0, s') else
  first ← cnf !! cs_beg s';
  if (cs_beg s' =? cs_end s' - 1)%nat && (length first <=? cs_pos s')%nat then Some (-1, s') else
  c ← cnf !! (cs_end s' - 1)%nat;
  x ← c !! cs_pos s';
  l ← level_of_var nv (Z.abs x);
  if level <=? l then None else Some (l, s').
Definition cn_spec (nv : nat) (cnf : list clause) : spec :=
  {| St := cstate; ar := 3;
     get_root := default (0, CState 0 0 0) (cn_root nv cnf);
     get_child := fun s l b => default (0, s) (cn_child nv cnf s l b);
     equal_to := fun _ s o => cs_eq cnf s o;
     hash_code := fun _ s => cs_hash cnf s |}.

(** ** the Boolean function *)
(** A Cudd object (apps/cnfbdd/Cudd.hpp) stands for the Boolean function it denotes: level -> value.  Cudd_bddIte,
    Cudd_bddAnd and the constants of CUDD are trusted to compute these functions. *)
Definition bfun : Type := (nat -> bool) -> bool.
(** Cudd(val) (Cudd.hpp 75-79), Cudd(level, f0, f1) (81-85), operator& (192-194) *)
Definition cudd_const (val : bool) : bfun := fun _ => val.
Definition cudd_node (level : nat) (f0 f1 : bfun) : bfun := fun a => if a level then f1 a else f0 a.
Definition cudd_and (f g : bfun) : bfun := fun a => f a && g a.
(** ZtddToCudd (ZtddToCudd.hpp 34-50); init, destructLevel and getValue are those of DdEval *)
Definition zc_node (level : nat) (vs : list (bfun * nat)) : option bfun :=
  fz ← vs !! 0%nat;
  fn ← vs !! 1%nat;
  fp ← vs !! 2%nat;
  Some (cudd_node level (cudd_and fz.1 fp.1) (cudd_and fz.1 fn.1)).
Definition ztdd_to_cudd : evaluator :=
  Ev unit bfun bfun (fun e _ => Some e)
    (fun e j => Some (e, cudd_const (negb (negb (j =? 0)%nat))))
    (fun e i vs => f ← zc_node i vs; Some (e, f))
    (fun e _ => Some e) (fun _ f => Some f).

(** run (cnf2ztdd2bdd.cpp 78-98): the diagram whose cardinality is printed and that is evaluated *)
Definition cnf2ztdd (nv nc : nat) (numbers : list Z) (junk : Z) (d : dd) : Prop :=
  exists cnf d0, load nv nc numbers junk = Some cnf /\ constructed (cn_spec nv cnf) d0 /\ reduction false true d0 d.
