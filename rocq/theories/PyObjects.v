(** * Model of the classes Profile, Description and Source of python/polycap.pyx (heap level)

    A Python object holds one C pointer (_profile, _description, _source); it is kept in the list of
    the program's objects.  An object is collected when the program deletes its only name: no object
    refers to another one (python/polycap.pyx:294 declares _profile_py, which is never set).  When
    __cinit__ raises an exception, Cython collects the object: __dealloc__ runs.  Numpy arrays that a
    method makes for itself are released when it is left.  [le] holds the variable error of the
    methods.  Atomic numbers are taken to fit into an int32. *)
From Coq Require Import ZArith List Bool Lia String.
From Verif Require Import Num Mem ErrorModel ProfileModel Geometry ConsModel PyModel SpecPyObj.
Import ListNotations.
Local Open Scope mem_scope.

Section PyObjects.
Context {T : Type} {N : Num T}.
Local Notation M := (M T).
Variable fit : list (T * T) -> T * T * T.
Variable x : tables T.
Variable le : loc.

(** Profile.__cinit__ and, if it raises, __dealloc__: lines 125-175. *)
Definition py_profile (type : Z) (len re_up re_down ri_up ri_down fd_up fd_down : T) : M (pyres ptr) :=
  store (Some le) 0 (Vptr NULL) ;;;
  p <- profile_new fit type len re_up re_down ri_up ri_down fd_up fd_down (Some le) ;;
  e <- load_ptr (Some le) 0 ;;
  r <- set_exception e (ret (Value p)) ;;
  match r with
  | Value _ => ret r
  | Raised _ _ => profile_free p ;;; ret r
  end.

(** Profile.new_from_arrays on lists: lines 177-202; np.asarray makes new arrays. *)
Definition py_profile_arrays (ext cap z : list T) : M (pyres ptr) :=
  a <- alloc (List.map Vdbl ext) ;; b <- alloc (List.map Vdbl cap) ;; c <- alloc (List.map Vdbl z) ;;
  r <- match a, b, c with
       | Some a, Some b, Some c => py_new_from_arrays (mkNd a 1 (List.length ext)) (mkNd b 1 (List.length cap)) (mkNd c 1 (List.length z)) (Some le)
       | _, _, _ => ret (Raised MemoryError "")
       end ;;
  (if is_null a then ret tt else free a) ;;; (if is_null b then ret tt else free b) ;;; (if is_null c then ret tt else free c) ;;;
  ret r.

(** ensure_int (lines 281-289) over the keys of a dict: line 323. *)
Fixpoint ensure_ints (items : list (key * T)) : pyres (list (Z * T)) :=
  match items with
  | [] => Value []
  | (k, w) :: items =>
      match k with
      | Number z => match ensure_ints items with Value r => Value ((z, w) :: r) | Raised c m => Raised c m end
      | Symbol s => match symbol_number x s with
                    | inl z => match ensure_ints items with Value r => Value ((z, w) :: r) | Raised c m => Raised c m end
                    | inr c => Raised c ""
                    end
      end
  end.

(** The composition as numbers and fractions: lines 319-342.  xraylib is the function [x]. *)
Definition py_composition (c : composition T) : pyres (list (Z * T)) :=
  match c with
  | Dict [] => Raised ValueError "composition cannot be empty"
  | Dict items => ensure_ints items
  | Formula f => match parsed x f with inl l => Value l | inr c => Raised c "" end
  | Other => Raised TypeError "composition must be a dictionary or a string"
  end.

(** Description.__cinit__ and, if it raises, __dealloc__: lines 296-362. *)
Definition py_description (profile : ptr) (sig_rough : T) (n_cap : Z) (c : composition T) (density : T) : M (pyres ptr) :=
  match py_composition c with
  | Raised k m => ret (Raised k m)
  | Value els =>
      iz <- alloc (List.map (fun e => Vint (fst e)) els) ;;
      wi <- alloc (List.map (fun e => Vdbl (snd e)) els) ;;
      match iz, wi with
      | Some _, Some _ =>
          store (Some le) 0 (Vptr NULL) ;;;
          d <- description_new profile sig_rough n_cap (List.length els) iz wi density (Some le) ;;
          e <- load_ptr (Some le) 0 ;;
          r <- set_exception e (ret (Value d)) ;;
          free iz ;;; free wi ;;;
          match r with
          | Value _ => ret r
          | Raised _ _ => description_free d ;;; ret r
          end
      | _, _ => (if is_null iz then ret tt else free iz) ;;; (if is_null wi then ret tt else free wi) ;;; ret (Raised MemoryError "")
      end
  end.

(** Source.__cinit__ on a list of energies and, if it raises, __dealloc__: lines 1045-1105. *)
Definition py_source (description : ptr) (d_source src_x src_y sigx sigy shx shy hp : T) (energies : list T) : M (pyres ptr) :=
  a <- alloc (List.map Vdbl energies) ;;
  match a with
  | None => ret (Raised MemoryError "")
  | Some _ =>
      store (Some le) 0 (Vptr NULL) ;;;
      p <- source_new description d_source src_x src_y sigx sigy shx shy hp (List.length energies) a (Some le) ;;
      e <- load_ptr (Some le) 0 ;;
      r <- set_exception e (ret (Value p)) ;;
      free a ;;;
      match r with
      | Value _ => ret r
      | Raised _ _ => source_free p ;;; ret r
      end
  end.

(** __dealloc__: lines 172-175, 359-362, 1102-1105. *)
Definition py_dealloc (o : pyobj) : M unit :=
  match o with PProfile p => profile_free p | PDescription p => description_free p | PSource p => source_free p end.

(** A constructor was called. *)
Definition made (wrap : ptr -> pyobj) (r : pyres ptr) (objs : list (option pyobj)) : reply * list (option pyobj) :=
  match r with Value p => (Made, objs ++ [Some (wrap p)]) | Raised c _ => (Exc c, objs ++ [None]) end.

(** One step of a program.  Handing an object of the wrong class to a constructor is a TypeError
    (the declared types of lines 297 and 1046). *)
Definition py_step (objs : list (option pyobj)) (o : order T) : M (reply * list (option pyobj)) :=
  match o with
  | NewProfile type len re_up re_down ri_up ri_down fd_up fd_down =>
      r <- py_profile type len re_up re_down ri_up ri_down fd_up fd_down ;; ret (made PProfile r objs)
  | NewProfileArrays ext cap z => r <- py_profile_arrays ext cap z ;; ret (made PProfile r objs)
  | NewDescription i sig n_cap c dens =>
      match nth_error objs i with
      | Some (Some (PProfile p)) => r <- py_description p sig n_cap c dens ;; ret (made PDescription r objs)
      | Some (Some _) => ret (Exc TypeError, objs ++ [None])
      | _ => ret (NoSuchName, objs ++ [None])
      end
  | NewSource i d_source src_x src_y sigx sigy shx shy hp ens =>
      match nth_error objs i with
      | Some (Some (PDescription d)) => r <- py_source d d_source src_x src_y sigx sigy shx shy hp ens ;; ret (made PSource r objs)
      | Some (Some _) => ret (Exc TypeError, objs ++ [None])
      | _ => ret (NoSuchName, objs ++ [None])
      end
  | Delete i =>
      match nth_error objs i with
      | Some (Some o) => py_dealloc o ;;; ret (Gone, set_nth objs i None)
      | _ => ret (NoSuchName, set_nth objs i None)
      end
  end.
Fixpoint py_run (ops : list (order T)) (objs : list (option pyobj)) : M (list reply * list (option pyobj)) :=
  match ops with
  | [] => ret ([], objs)
  | o :: ops =>
      r <- py_step objs o ;;
      rest <- py_run ops (snd r) ;;
      ret (fst r :: fst rest, snd rest)
  end.

End PyObjects.
