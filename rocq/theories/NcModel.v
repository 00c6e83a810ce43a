(** * Writing netCDF files (utilities/nctools.py:83-420).
    The netCDF4 library is a small state machine on one data set: named
    dimensions, named variables, attributes, open or closed.  Compression,
    precision trimming and file format are not modelled; converting a value to
    the type code of a variable is the parameter [cast]. *)
From Coq Require Import Ascii String.
From Verif Require Import Base PyStr.
Open Scope Z_scope.

(** Attribute values are texts or numbers. *)
Inductive attval := AText (s : string) | ANums (l : list num).
Definition atts := list (string * attval).

(** numpy array of any number of dimensions. *)
Record arr := Arr { a_shape : list Z; a_at : list Z -> num }.

Record ncvar := NcVar { nv_name : string; nv_dims : list string; nv_shape : list Z;
                        nv_at : list Z -> num; nv_atts : atts }.
Record ncfile := NcFile { nf_dims : list (string * Z); nf_vars : list ncvar; nf_atts : atts; nf_open : bool }.

(** State of the data set and the exception raised, if any. *)
Definition ncres := (ncfile * option exn)%type.
Definition nc_then (r : ncres) (k : ncfile -> ncres) : ncres :=
  match snd r with None => k (fst r) | Some e => r end.

Definition has_dim (f : ncfile) (n : string) : bool := existsb (fun d => String.eqb (fst d) n) (nf_dims f).
Definition has_var (f : ncfile) (n : string) : bool := existsb (fun v => String.eqb (nv_name v) n) (nf_vars f).
Definition dim_size (f : ncfile) (n : string) : option Z :=
  match find (fun d => String.eqb (fst d) n) (nf_dims f) with Some d => Some (snd d) | None => None end.
Fixpoint dim_sizes (f : ncfile) (l : list string) : option (list Z) :=
  match l with
  | [] => Some []
  | n :: l => match dim_size f n, dim_sizes f l with Some z, Some zs => Some (z :: zs) | _, _ => None end
  end.

(** [Dataset(filename, 'w', clobber=True)]: an empty, open data set. *)
Definition nc_new : ncfile := NcFile [] [] [] true.
Definition nc_close (f : ncfile) : ncfile := NcFile (nf_dims f) (nf_vars f) (nf_atts f) false.

(** netCDF4 [createDimension]: a name can be used once.  (Size 0 makes netCDF4
    create an unlimited dimension of length 0.) *)
Definition create_dimension (f : ncfile) (n : string) (size : Z) : ncres :=
  if has_dim f n then (f, Some RuntimeError)
  else (NcFile (nf_dims f ++ [(n, size)]) (nf_vars f) (nf_atts f) (nf_open f), None).

(** netCDF4 [createVariable]: fresh name, known dimensions; filled with [fill]. *)
Definition create_variable (f : ncfile) (n : string) (dims : list string) (fill : num) : ncres :=
  if has_var f n then (f, Some RuntimeError)
  else match dim_sizes f dims with
       | None => (f, Some KeyError)
       | Some sh => (NcFile (nf_dims f) (nf_vars f ++ [NcVar n dims sh (fun _ => fill) []]) (nf_atts f) (nf_open f), None)
       end.

(** [var[:] = a]: equal shapes, or sizes 1 repeated. *)
Fixpoint broadcastable (sh target : list Z) : bool :=
  match sh, target with
  | [], [] => true
  | n :: sh, m :: target => ((n =? m) || (n =? 1)) && broadcastable sh target
  | _, _ => false
  end.
Fixpoint squeeze (sh ix : list Z) : list Z :=
  match sh, ix with n :: sh, i :: ix => (if n =? 1 then 0 else i) :: squeeze sh ix | _, _ => [] end.
Definition upd_var (f : ncfile) (n : string) (g : ncvar -> ncvar) : ncfile :=
  NcFile (nf_dims f) (map (fun v => if String.eqb (nv_name v) n then g v else v) (nf_vars f)) (nf_atts f) (nf_open f).
Definition assign_all (f : ncfile) (n : string) (a : arr) : ncres :=
  match find (fun v => String.eqb (nv_name v) n) (nf_vars f) with
  | None => (f, Some KeyError)
  | Some v =>
      if broadcastable (a_shape a) (nv_shape v)
      then (upd_var f n (fun v => NcVar (nv_name v) (nv_dims v) (nv_shape v) (fun ix => a_at a (squeeze (a_shape a) ix)) (nv_atts v)), None)
      else (f, Some ValueError)
  end.
Definition set_atts (f : ncfile) (n : string) (a : atts) : ncfile :=
  upd_var f n (fun v => NcVar (nv_name v) (nv_dims v) (nv_shape v) (nv_at v) (nv_atts v ++ a)).
Definition set_gatts (f : ncfile) (a : atts) : ncfile := NcFile (nf_dims f) (nf_vars f) (nf_atts f ++ a) (nf_open f).

(** Requests: dictionaries with possibly missing keys (nctools.py:163-194).
    The values of a variable may be given as [None]. *)
Record dimreq := DimReq { dr_name : option string; dr_values : option (list num); dr_dtype : option string; dr_atts : option atts }.
Record varreq := VarReq { vr_name : option string; vr_values : option (option arr); vr_dtype : option string;
                          vr_dims : option (list string); vr_atts : option atts }.

(** nctools.py:126-145 (through nc_create_var, lines 83-123, with [data=None]). *)
Definition nc_create_dim (cast : string -> num -> num) (f : ncfile) (name : string) (values : list num) (dtype : string) (a : atts) : ncres :=
  nc_then (create_dimension f name (zlen values)) (fun f =>
  nc_then (create_variable f name [name] NaN) (fun f =>
  nc_then (assign_all f name (Arr [zlen values] (fun ix => cast dtype (nth (Z.to_nat (hd 0 ix)) values NaN)))) (fun f =>
  (match a with [] => f | _ => set_atts f name a end, None)))).

(** nctools.py:244-253: the loop over dimensions. *)
Fixpoint save_dims (cast : string -> num -> num) (f : ncfile) (dims : list dimreq) : ncres :=
  match dims with
  | [] => (f, None)
  | DimReq (Some n) (Some v) (Some t) (Some a) :: rest => nc_then (nc_create_dim cast f n v t a) (fun f => save_dims cast f rest)
  | _ :: _ => (nc_close f, Some KeyError)
  end.

(** nctools.py:255-293: the loop over variables returns at the end of its first
    round. *)
Definition save_var (cast : string -> num -> num) (nodata : Q) (title : option string) (gatts : atts) (writedata keepfileopen : bool)
    (f : ncfile) (v : varreq) : ncres :=
  match v with
  | VarReq (Some n) (Some vals) (Some t) (Some dims) (Some a) =>
      let go :=
        nc_then (create_variable f n dims (Num nodata)) (fun f =>
        nc_then (match vals with
                 | Some x => if writedata then assign_all f n (Arr (a_shape x) (fun ix => cast t (a_at x ix))) else (f, None)
                 | None => (f, None) end) (fun f =>
        let f := set_gatts (set_atts f n a) gatts in
        let f := match title with Some s => set_gatts f [("title"%string, AText s)] | None => f end in
        (if keepfileopen then f else nc_close f, None))) in
      match vals with
      | Some x => if zlen dims =? zlen (a_shape x) then go else (nc_close f, Some ValueError)
      | None => go
      end
  | _ => (nc_close f, Some KeyError)
  end.

(** nctools.py:148-293.  An empty [variables] leaves the data set open: the
    function falls off its end. *)
Definition nc_save_grid (cast : string -> num -> num) (dims : list dimreq) (vars : list varreq) (nodata : Q) (title : option string)
    (gatts : atts) (writedata keepfileopen : bool) : ncres :=
  nc_then (save_dims cast nc_new dims) (fun f =>
  match vars with
  | [] => (f, None)
  | v :: _ => save_var cast nodata title gatts writedata keepfileopen f v
  end).

(** nctools.py:360-420: what save_multiplier asks for.  The attribute values
    (ranges, configuration, time, user, git version) are the parameters
    [latts], [latts'], [matts], [catts] and [gatts]. *)
Definition save_multiplier_request (name : string) (values : grid num) (lat lon : list num) (latts lonatts matts catts : atts) :
    list dimreq * list varreq :=
  ([DimReq (Some "lat"%string) (Some lat) (Some "d"%string) (Some latts);
    DimReq (Some "lon"%string) (Some lon) (Some "d"%string) (Some lonatts)],
   [VarReq (Some name) (Some (Some (Arr [g_rows values; g_cols values] (fun ix => g_at values (nth 0 ix 0) (nth 1 ix 0)))))
      (Some "f"%string) (Some ["lat"%string; "lon"%string]) (Some matts);
    VarReq (Some "crs"%string) (Some None) (Some "i"%string) (Some []) (Some catts)]).
Definition save_multiplier (cast : string -> num -> num) (name : string) (values : grid num) (lat lon : list num)
    (latts lonatts matts catts gatts : atts) : ncres :=
  let rq := save_multiplier_request name values lat lon latts lonatts matts catts in
  nc_save_grid cast (fst rq) (snd rq) (-9999) (Some (name ++ " multiplier")%string) gatts true false.
