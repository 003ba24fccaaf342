(** * Vocabulary: Python programs that make and delete Profile, Description and Source objects
    (values only)

    The objects of a program are numbered in the order in which it tries to make them; [None]: it was
    not made, or has been deleted. *)
From Coq Require Import ZArith List Bool String.
From Verif Require Import Num Mem SpecHeap Geometry CapilModel ErrorModel ProfileModel ProfileProofs PyModel SpecFlight.
Import ListNotations.

Section Spec.
Context {T : Type} {N : Num T}.

(** What the objects stand for; [nums]: the eight numbers of a source in the order of the arguments. *)
Inductive thing := AProfile (p : profile T) | ADescription (o : optic T) | ASource (o : optic T) (nums ens : list T).

(** The argument [composition] of Description: a dict from atomic numbers or symbols to fractions, a
    chemical formula, or something else. *)
Inductive key := Number (z : Z) | Symbol (name : string).
Inductive composition := Dict (items : list (key * T)) | Formula (f : string) | Other.

(** What a program does. *)
Inductive order :=
| NewProfile (type : Z) (len re_up re_down ri_up ri_down fd_up fd_down : T)
| NewProfileArrays (ext cap z : list T)
| NewDescription (profile : nat) (sig : T) (n_cap : Z) (c : composition) (dens : T)
| NewSource (description : nat) (d_source src_x src_y sigx sigy shx shy hp : T) (energies : list T)
| Delete (i : nat).

(** What it sees: a new object, an exception, a deletion done, a NameError. *)
Inductive reply := Made | Exc (c : pyclass) | Gone | NoSuchName.

(** xraylib: the number of a symbol, the elements and mass fractions of a formula; or the class of the
    exception. *)
Record tables := mkTables { symbol_number : string -> Z + pyclass; parsed : string -> list (Z * T) + pyclass }.
(** The curve fit of a paraboloidal profile. *)
Variable fit : list (T * T) -> T * T * T.
Variable x : tables.

Fixpoint numbers (items : list (key * T)) : list (Z * T) + pyclass :=
  match items with
  | [] => inl []
  | (k, w) :: items =>
      match match k with Number z => inl z | Symbol s => symbol_number x s end with
      | inr c => inr c
      | inl z => match numbers items with inl r => inl ((z, w) :: r) | inr c => inr c end
      end
  end.
(** An empty dict is refused, and so is anything that is neither a dict nor a string. *)
Definition elements_of (c : composition) : list (Z * T) + pyclass :=
  match c with
  | Dict [] => inr ValueError
  | Dict items => numbers items
  | Formula f => parsed x f
  | Other => inr TypeError
  end.

(** Numbers adding up to more than one are percentages. *)
Definition total (ws : list T) : T := fold_left nadd ws (#0)%num.
Definition fractions (ws : list T) : list T := if nltb (#1)%num (total ws) then List.map (fun w => (w / #100)%num) ws else ws.
Definition fractions_ok (ws : list T) : bool :=
  (if nltb (#1)%num (total ws) then forallb (fun w => negb (nltb w (#0)%num)) (fractions ws) else true) && neqb (total (fractions ws)) (#1)%num.

Definition description_ok (sig : T) (n_cap : Z) (els : list (Z * T)) (dens : T) : bool :=
  negb (nltb sig (#0)%num) && Z.ltb 1 n_cap && negb (nleb dens (#0)%num) && Nat.leb 1 (List.length els) &&
  forallb (fun e => Z.leb 1 (fst e) && Z.leb (fst e) 111) els.
(** All capillaries inside the optic (C11). *)
Definition shape_ok (p : profile T) (n_cap : Z) : bool := match profile_validate p n_cap with Some v => Z.eqb v 1 | None => false end.
Definition source_ok (d_source src_x src_y hp : T) (ens : list T) : bool :=
  negb (nleb d_source (#0)%num) && negb (nleb src_x (#0)%num) && negb (nleb src_y (#0)%num) &&
  negb (nltb (#1)%num (nabs hp)) && Nat.leb 1 (List.length ens) && forallb (fun e => negb (nltb e (#1)%num || nltb (#100)%num e)) ens.

(** A profile of 1000 points by shape (C03-C06). *)
Definition made_profile (type : Z) (len re_up re_down ri_up ri_down fd_up fd_down : T) : option (profile T) :=
  match arg_error len re_up re_down ri_up ri_down fd_up fd_down with
  | Some _ => None
  | None => if Z.leb 0 type && Z.leb type 2
            then Some (mkProfile 999 (List.map (pz len) (seq 0 1000)) (List.map (pc len ri_up ri_down) (seq 0 1000))
                                     (List.map (pe fit type len re_up re_down fd_up fd_down) (seq 0 1000)))
            else None
  end.

(** One step: the reply, what is made, and how many blocks of memory are lost: one if a description is
    refused because of its profile. *)
Definition outcome (objs : list (option thing)) (o : order) : reply * option thing * nat :=
  match o with
  | NewProfile type len re_up re_down ri_up ri_down fd_up fd_down =>
      match made_profile type len re_up re_down ri_up ri_down fd_up fd_down with
      | Some p => (Made, Some (AProfile p), 0)
      | None => (Exc ValueError, None, 0)
      end
  | NewProfileArrays ext cap z =>
      if Nat.eqb (List.length ext) (List.length z) && Nat.eqb (List.length ext) (List.length cap) && Nat.ltb 2 (List.length z)
      then (Made, Some (AProfile (mkProfile (List.length z - 1) z cap ext)), 0)
      else (Exc ValueError, None, 0)
  | NewDescription i sig n_cap c dens =>
      match nth_error objs i with
      | Some (Some (AProfile p)) =>
          match elements_of c with
          | inr e => (Exc e, None, 0)
          | inl els =>
              if negb (description_ok sig n_cap els dens) then (Exc ValueError, None, 0)
              else if negb (shape_ok p n_cap) then (Exc ValueError, None, 1)
              else if negb (fractions_ok (List.map snd els)) then (Exc ValueError, None, 0)
              else (Made, Some (ADescription (mkOptic p n_cap sig dens (List.map fst els) (fractions (List.map snd els)))), 0)
          end
      | Some (Some _) => (Exc TypeError, None, 0)
      | _ => (NoSuchName, None, 0)
      end
  | NewSource i d_source src_x src_y sigx sigy shx shy hp ens =>
      match nth_error objs i with
      | Some (Some (ADescription o)) =>
          if source_ok d_source src_x src_y hp ens
          then (Made, Some (ASource o [d_source; src_x; src_y; sigx; sigy; shx; shy; hp] ens), 0)
          else (Exc ValueError, None, 0)
      | Some (Some _) => (Exc TypeError, None, 0)
      | _ => (NoSuchName, None, 0)
      end
  | Delete i => match nth_error objs i with Some (Some _) => (Gone, None, 0) | _ => (NoSuchName, None, 0) end
  end.

(** A program: the replies, the objects there are in the end, the number of blocks lost. *)
Fixpoint story (ops : list order) (objs : list (option thing)) : list reply * list (option thing) * nat :=
  match ops with
  | [] => ([], objs, 0)
  | o :: ops =>
      let '(r, t, n) := outcome objs o in
      let '(rs, objs', m) := story ops (match o with Delete i => set_nth objs i None | _ => objs ++ [t] end) in
      (r :: rs, objs', n + m)
  end.

(** ** In memory *)
(** The C object a Python object refers to. *)
Inductive pyobj := PProfile (p : ptr) | PDescription (p : ptr) | PSource (p : ptr).

Definition profile_in (s : st T) (p : loc) (a : profile T) (L : list loc) : Prop :=
  exists lz lc le, L = [p; lz; lc; le] /\ profile_object s p lz lc le (Z.of_nat (p_nmax a)) (p_z a) (p_cap a) (p_ext a) /\
    List.length (p_z a) = S (p_nmax a) /\ List.length (p_cap a) = S (p_nmax a) /\ List.length (p_ext a) = S (p_nmax a).
Definition source_in (s : st T) (p : loc) (o : optic T) (nums ens : list T) (L : list loc) : Prop :=
  exists len lr lg d D, L = [p; len; lr; lg] ++ D /\ source_object s p len lr lg d nums ens /\ optic_at s d D o.

(** The object [o] stands for [a], in the blocks [L]. *)
Definition stands (s : st T) (o : option pyobj) (a : option thing) (L : list loc) : Prop :=
  match o, a with
  | None, None => L = []
  | Some (PProfile (Some p)), Some (AProfile v) => profile_in s p v L
  | Some (PDescription (Some p)), Some (ADescription v) => optic_at s p L v
  | Some (PSource (Some p)), Some (ASource v nums ens) => source_in s p v nums ens L
  | _, _ => False
  end.
Fixpoint stand (s : st T) (os : list (option pyobj)) (ts : list (option thing)) (Ls : list (list loc)) : Prop :=
  match os, ts, Ls with
  | [], [], [] => True
  | o :: os, a :: ts, L :: Ls => stands s o a L /\ stand s os ts Ls
  | _, _, _ => False
  end.

End Spec.
Arguments thing T : clear implicits.
Arguments order T : clear implicits.
Arguments composition T : clear implicits.
Arguments tables T : clear implicits.
