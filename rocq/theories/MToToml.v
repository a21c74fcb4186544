(** Model of the TOML writer up to the toml++ node tree (src_toml_interface/to_toml.cc:60-208).
    The text is written by toml++'s toml_formatter, third-party code: the model ends with the
    tree handed to it. *)
From Coq Require Import ZArith Bool Lia Ascii String List.
From Verif Require Import Base F64 StrMap Value MNum MText MToJson MToml.
Import ListNotations.
Local Open Scope Z_scope.

(** ostringstream << std::hex << void* (to_toml.cc:169-184), as in [to_json]. *)
Definition ptr_text (p : Z) : string := untxt (print_hex p).

(** toml::table of a matrix (to_toml.cc:112-167): insert keeps the keys ordered. *)
Definition mat_table (name : string) (nr nc : Z) (data : list (string * list toml)) : toml :=
  TTbl [(name, TTbl (map (fun kv => (fst kv, TArr (snd kv))) data ++ [("$ncols"%string, TIntN nc); ("$nrows"%string, TIntN nr)]))].

(** GC_to_TOML (to_toml.cc:60-189).  [Ok None] is the null unique_ptr that an empty container
    gives (lines 64-65); dereferencing it (lines 101, 107) is undefined.  Real and complex
    matrices are written under "$mat_long" too (lines 149, 165).
    Simplifications: the copies of the elements that the loop over a vector makes (line 101)
    are exact, as C01 shows when no key contains a zero character; a complex number is a pair
    of doubles. *)
Fixpoint GC_to_TOML (g : gc) : out (option toml) :=
  let some t := Ok (Some t) in
  let deref (o : out (option toml)) : out toml :=
    do p <- o ; match p with Some t => Ok t | None => Undef end in
  match g with
  | GNone => Ok None
  | GBool b => some (TBoolN b)
  | GInt i => some (TIntN i)
  | GLong l => some (TIntN l)
  | GReal x => some (TFltN x)
  | GComplex c => some (TArr [TFltN (fst c); TFltN (snd c)])
  | GStr s => some (TStrN s)
  | GVBool v => some (TArr (map TBoolN v))
  | GVInt v => some (TArr (map TIntN v))
  | GVLong v => some (TArr (map TIntN v))
  | GVReal v => some (TArr (map TFltN v))
  | GVComplex v => some (TArr (map (fun c => TArr [TFltN (fst c); TFltN (snd c)]) v))
  | GVStr v => some (TArr (map TStrN v))
  | GVec v =>
      do l <- (fix go (v : list gc) : out (list toml) :=
                 match v with
                 | [] => Ok []
                 | a :: v' => do t <- deref (GC_to_TOML a) ; do r <- go v' ; Ok (t :: r)
                 end) v ;
      some (TArr l)
  | GMap m =>
      do l <- (fix go (m : list (string * gc)) : out (list (string * toml)) :=
                 match m with
                 | [] => Ok []
                 | (k, a) :: m' => do t <- deref (GC_to_TOML a) ; do r <- go m' ; Ok ((k, t) :: r)
                 end) m ;
      some (TTbl l)
  | GMInt m => some (mat_table "$mat_integer"%string (mrows m) (mcols m) [("$data"%string, map TIntN (mdata m))])
  | GMLong m => some (mat_table "$mat_long"%string (mrows m) (mcols m) [("$data"%string, map TIntN (mdata m))])
  | GMReal m => some (mat_table "$mat_long"%string (mrows m) (mcols m) [("$data"%string, map TFltN (mdata m))])
  | GMComplex m =>
      some (mat_table "$mat_long"%string (mrows m) (mcols m)
              [("$data_imag"%string, map (fun c => TFltN (snd c)) (mdata m)); ("$data_real"%string, map (fun c => TFltN (fst c)) (mdata m))])
  | GPtr p => some (TStrN (ptr_text p))
  | GVPtr v => some (TArr (map (fun p => TStrN (ptr_text p)) v))
  end.

(** The tree to_toml (to_toml.cc:191-208) hands to the formatter.  toml_formatter of a
    dereferenced null pointer is undefined (line 197). *)
Definition to_toml (g : gc) : out toml :=
  do p <- GC_to_TOML g ; match p with Some t => Ok t | None => Undef end.

Example to_toml_ex :
  to_toml (GMap [("a"%string, GVec [GLong (2^40); GComplex (f_one, 0)]); ("m"%string, GMReal (Mat 1 2 [f_one; 0])); ("p"%string, GPtr 255)]) =
    Ok (TTbl [("a"%string, TArr [TIntN (2^40); TArr [TFltN f_one; TFltN 0]]);
              ("m"%string, TTbl [("$mat_long"%string, TTbl [("$data"%string, TArr [TFltN f_one; TFltN 0]); ("$ncols"%string, TIntN 2); ("$nrows"%string, TIntN 1)])]);
              ("p"%string, TStrN "0xff"%string)]) /\
  to_toml (GMap [("a"%string, GNone)]) = Undef.
Proof. vmc. Qed.

(** The loops in terms of [to_toml]. *)
Lemma to_toml_vec v : to_toml (GVec v) = do l <- omapM to_toml v ; Ok (TArr l).
Proof.
  enough (E : GC_to_TOML (GVec v) = do l <- omapM to_toml v ; Ok (Some (TArr l))).
  { unfold to_toml at 1. rewrite E. destruct (omapM to_toml v); reflexivity. }
  induction v as [|a v IH]; [reflexivity|]. cbn [omapM]. cbn [GC_to_TOML] in IH |- *.
  change (do p <- GC_to_TOML a ; match p with Some t => Ok t | None => Undef end) with (to_toml a).
  destruct (to_toml a) as [t| | |]; cbn [bind]; try reflexivity.
  match type of IH with bind ?x _ = _ => destruct x end; destruct (omapM to_toml v); cbn [bind] in *; try discriminate; congruence.
Qed.
Lemma to_toml_map m : to_toml (GMap m) = do l <- omapM (fun kv => do t <- to_toml (snd kv) ; Ok (fst kv, t)) m ; Ok (TTbl l).
Proof.
  enough (E : GC_to_TOML (GMap m) = do l <- omapM (fun kv => do t <- to_toml (snd kv) ; Ok (fst kv, t)) m ; Ok (Some (TTbl l))).
  { unfold to_toml at 1. rewrite E. destruct (omapM _ m); reflexivity. }
  induction m as [|[k a] v IH]; [reflexivity|]. cbn [omapM]. cbn [GC_to_TOML] in IH |- *. cbn [fst snd].
  change (do p <- GC_to_TOML a ; match p with Some t => Ok t | None => Undef end) with (to_toml a).
  destruct (to_toml a) as [t| | |]; cbn [bind]; try reflexivity.
  match type of IH with bind ?x _ = _ => destruct x end; destruct (omapM _ v); cbn [bind] in *; try discriminate; congruence.
Qed.
