(** Model of mem_size, serialize and de_serialize (src/GenericContainerSerialize.cc:32-565).

    A buffer is the list of its bytes; [pos] is the distance of the C++ pointer from the start
    of the allocation.  Writing or reading a byte outside the list is [Undef]; moving the
    pointer is not checked, only accesses are. *)
From Coq Require Import ZArith Bool Lia Ascii String List.
From Verif Require Import Base F64 StrMap Value MBasic.
Import ListNotations.
Local Open Scope Z_scope.

(** Signed 32-bit arithmetic: overflow is undefined. *)
Definition chk32 (z : Z) : out Z := if (- 2^31 <=? z) && (z <? 2^31) then Ok z else Undef.

(** The bytes of a string. *)
Definition byte_of (c : ascii) : Z := Z.of_N (N_of_ascii c).
Definition ascii_of (b : Z) : ascii := ascii_of_N (Z.to_N b).
Definition bytes_of (s : string) : list Z := map byte_of (list_ascii_of_string s).
Definition slen (s : string) : Z := Z.of_nat (String.length s).

(** * Writing *)

(** The state of serialize: memory, pointer, and the variable [available] (line 196). *)
Record wst : Type := W { wbuf : list Z; wpos : Z; wavail : Z }.
Definition wop : Type := wst -> out unit * wst.
Definition wskip : wop := fun st => (Ok tt, st).
Definition wseq (a b : wop) : wop := fun st =>
  match a st with (Ok _, st') => b st' | (r, st') => (r, st') end.
Notation "a ;; b" := (wseq a b) (at level 61, right associativity).

(** Storing the bytes [bs] at the pointer, then buffer += n; available -= n. *)
Definition store (bs : list Z) : wop := fun st =>
  let n := zlen bs in
  if (0 <=? wpos st) && (wpos st + n <=? zlen (wbuf st)) then
    let buf' := firstn (Z.to_nat (wpos st)) (wbuf st) ++ bs ++ skipn (Z.to_nat (wpos st + n)) (wbuf st) in
    match chk32 (wavail st - n) with
    | Ok a => (Ok tt, W buf' (wpos st + n) a)
    | _ => (Undef, W buf' (wpos st + n) (wavail st))
    end
  else (Undef, st).

(** The *_to_buffer functions, lines 34-87: the check compares with [available] converted to
    unsigned. *)
Definition put (bs : list Z) : wop := fun st =>
  if zlen bs <=? to_u32 (wavail st) then store bs st else (Throw, st).

(** in & 0xFF; in >>= 8; ... (lines 46-49, 63-70). *)
Fixpoint bytes_le (n : nat) (z : Z) : list Z :=
  match n with O => [] | S n' => Z.land z 255 :: bytes_le n' (Z.shiftr z 8) end.

Definition put_i8 (b : bool) : wop := put [if b then 1 else 0].
Definition put_i32 (z : Z) : wop := put (bytes_le 4 (to_u32 z)).
Definition put_i64 (z : Z) : wop := put (bytes_le 8 (to_u64 z)).
Definition put_f64 (x : Z) : wop := put (bytes_le 8 x).
Definition put_cplx (c : cplx) : wop := put_f64 (fst c) ;; put_f64 (snd c).

Fixpoint wmap {A} (f : A -> wop) (l : list A) : wop :=
  match l with [] => wskip | a :: l' => f a ;; wmap f l' end.

(** The writing of a container into [dim] declared bytes ends with the value
    buffer_dim-available (line 365). *)
Definition finish (dim : Z) (r : out unit * wst) : out Z * list Z :=
  match r with
  | (Ok _, st) => (chk32 (dim - wavail st), wbuf st)
  | (Throw, st) => (Throw, wbuf st)
  | (Undef, st) => (Undef, wbuf st)
  | (Diverge, st) => (Diverge, wbuf st)
  end.
(** nb = S.serialize( available, buffer ); buffer += nb; available -= nb (lines 346-347,
    360-361). *)
Definition child (f : Z -> list Z -> Z -> out Z * list Z) : wop := fun st =>
  match f (wavail st) (wbuf st) (wpos st) with
  | (Ok nb, buf') =>
      match chk32 (wavail st - nb) with
      | Ok a => (Ok tt, W buf' (wpos st + nb) a)
      | _ => (Undef, W buf' (wpos st) (wavail st))
      end
  | (Throw, buf') => (Throw, W buf' (wpos st) (wavail st))
  | (Undef, buf') => (Undef, W buf' (wpos st) (wavail st))
  | (Diverge, buf') => (Diverge, W buf' (wpos st) (wavail st))
  end.

Section Serialize.
  (** &s.front() on an empty string is undefined by the C++ standard; a library with
      assertions enabled aborts, a plain one yields a pointer to the terminator.  [hard]
      chooses the former. *)
  Variable hard : bool.

  (** Lines 226-231, 334-339, 354-359: the length with terminator as a signed int, then the
      bytes; memcpy converts the length to size_t. *)
  Definition put_str (s : string) : wop :=
    let sz := to_i32 (slen s + 1) in
    put_i32 sz ;;
    (fun st =>
       if sz <=? wavail st then
         if sz <? 0 then (Undef, st)
         else if hard && (slen s =? 0) then (Undef, st)
         else store (firstn (Z.to_nat sz) (bytes_of s ++ [0])) st
       else (Throw, st)).

  Definition put_mat {A} (f : A -> wop) (m : mat A) : wop :=
    put_i32 (mrows m) ;; put_i32 (mcols m) ;; wmap f (mdata m).

  (** serialize( int32_t buffer_dim, uint8_t * buffer ), lines 193-366. *)
  Fixpoint serialize (g : gc) (dim : Z) (buf : list Z) (pos : Z) {struct g} : out Z * list Z :=
    finish dim ((put_i32 (tag_num (tag_of g)) ;;
      match g with
      | GNone => wskip
      | GBool b => put_i8 b
      | GInt i => put_i32 i
      | GLong l => put_i64 l
      | GReal r => put_f64 r
      | GPtr p => put_i64 p
      | GStr s => put_str s
      | GComplex c => put_cplx c
      | GVPtr v => put_i32 (zlen v) ;; wmap put_i64 v
      | GVBool v => put_i32 (zlen v) ;; wmap put_i8 v
      | GVInt v => put_i32 (zlen v) ;; wmap put_i32 v
      | GVLong v => put_i32 (zlen v) ;; wmap put_i64 v
      | GVReal v => put_i32 (zlen v) ;; wmap put_f64 v
      | GVComplex v => put_i32 (zlen v) ;; wmap put_cplx v
      | GMInt m => put_mat put_i32 m
      | GMLong m => put_mat put_i64 m
      | GMReal m => put_mat put_f64 m
      | GMComplex m => (* no break at line 329: VEC_STRING follows, on the wrong union member *)
          put_mat put_cplx m ;; (fun st => (Undef, st))
      | GVStr v => put_i32 (zlen v) ;; wmap put_str v
      | GVec v => put_i32 (zlen v) ;;
          (fix go (l : list gc) : wop :=
             match l with [] => wskip | e :: t => child (serialize e) ;; go t end) v
      | GMap m => put_i32 (zlen m) ;;
          (fix go (l : list (string * gc)) : wop :=
             match l with [] => wskip | (k, e) :: t => put_str k ;; child (serialize e) ;; go t end) m
      end) (W buf pos dim)).

  (** serialize( std::vector<uint8_t> & ), lines 187-191. *)
  Definition serialize_vector (g : gc) (buf : list Z) : out Z * list Z :=
    serialize g (to_i32 (zlen buf)) buf 0.
End Serialize.

(** * mem_size, lines 145-185 *)
Fixpoint sum32 (l : list (out Z)) (res : Z) : out Z :=
  match l with [] => Ok res | x :: l' => do n <- x ; do r <- chk32 (res + n) ; sum32 l' r end.

Fixpoint mem_size (g : gc) : out Z :=
  match g with
  | GNone => Ok 4
  | GBool _ => Ok (4 + 1)
  | GInt _ => Ok (4 + 4)
  | GLong _ => Ok (4 + 8)
  | GReal _ => Ok (4 + 8)
  | GPtr _ => Ok (4 + 8)
  | GStr s => Ok (to_i32 (4 + slen s + 5))
  | GComplex _ => Ok (4 + 16)
  | GVPtr v => Ok (to_i32 (4 + 4 + 8 * zlen v))
  | GVBool v => Ok (to_i32 (4 + 4 + zlen v))
  | GVInt v => Ok (to_i32 (4 + 4 + 4 * zlen v))
  | GVLong v => Ok (to_i32 (4 + 4 + 8 * zlen v))
  | GVReal v => Ok (to_i32 (4 + 4 + 8 * zlen v))
  | GVComplex v => Ok (to_i32 (4 + 4 + 16 * zlen v))
  | GMInt m => Ok (to_i32 (4 + 2 * 4 + 4 * zlen (mdata m)))
  | GMLong m => Ok (to_i32 (4 + 2 * 4 + 8 * zlen (mdata m)))
  | GMReal m => Ok (to_i32 (4 + 2 * 4 + 8 * zlen (mdata m)))
  | GMComplex m => Ok (to_i32 (4 + 2 * 4 + 16 * zlen (mdata m)))
  | GVStr v => sum32 (map (fun s => Ok (to_i32 (4 + slen s + 1))) v) (4 + 4)
  | GVec v => sum32 ((fix go (l : list gc) : list (out Z) :=
                        match l with [] => [] | e :: t => mem_size e :: go t end) v) (4 + 4)
  | GMap m => sum32 ((fix go (l : list (string * gc)) : list (out Z) :=
                        match l with
                        | [] => []
                        | (k, e) :: t => (do n <- mem_size e ; Ok (to_i32 (4 + slen k + 1 + n))) :: go t
                        end) m) (4 + 4)
  end.

(** * Reading *)

(** buffer[i]. *)
Definition rd8 (buf : list Z) (pos : Z) : out Z :=
  match znth pos buf with Some b => Ok b | None => Undef end.
(** buffer_to_uint32, buffer_to_int32, buffer_to_uint64, buffer_to_int64, buffer_to_double
    (lines 98-143). *)
Definition rd_u32 (buf : list Z) (pos : Z) : out Z :=
  do b0 <- rd8 buf pos ; do b1 <- rd8 buf (pos + 1) ; do b2 <- rd8 buf (pos + 2) ; do b3 <- rd8 buf (pos + 3) ;
  Ok (Z.lor (Z.lor (Z.lor b0 (Z.shiftl b1 8)) (Z.shiftl b2 16)) (Z.shiftl b3 24)).
Definition rd_i32 (buf : list Z) (pos : Z) : out Z := omap to_i32 (rd_u32 buf pos).
Definition rd_u64 (buf : list Z) (pos : Z) : out Z :=
  do b0 <- rd8 buf pos ; do b1 <- rd8 buf (pos + 1) ; do b2 <- rd8 buf (pos + 2) ; do b3 <- rd8 buf (pos + 3) ;
  do b4 <- rd8 buf (pos + 4) ; do b5 <- rd8 buf (pos + 5) ; do b6 <- rd8 buf (pos + 6) ; do b7 <- rd8 buf (pos + 7) ;
  Ok (Z.lor (Z.lor (Z.lor (Z.lor (Z.lor (Z.lor (Z.lor b0 (Z.shiftl b1 8)) (Z.shiftl b2 16)) (Z.shiftl b3 24))
        (Z.shiftl b4 32)) (Z.shiftl b5 40)) (Z.shiftl b6 48)) (Z.shiftl b7 56)).
Definition rd_i64 (buf : list Z) (pos : Z) : out Z := omap to_i64 (rd_u64 buf pos).
Definition rd_f64 : list Z -> Z -> out Z := rd_u64.
Definition rd_bool (buf : list Z) (pos : Z) : out bool := omap (fun b => 0 <? b) (rd8 buf pos).
Definition rd_cplx (buf : list Z) (pos : Z) : out cplx :=
  do re <- rd_f64 buf pos ; do im <- rd_f64 buf (pos + 8) ; Ok (re, im).

(** Assignment of a char const *: bytes up to the first zero. *)
Fixpoint scan_cstr (l : list Z) : out string :=
  match l with
  | [] => Undef
  | b :: l' => if b =? 0 then Ok EmptyString else do s <- scan_cstr l' ; Ok (String (ascii_of b) s)
  end.
Definition rd_cstr (buf : list Z) (pos : Z) : out string :=
  if (0 <=? pos) && (pos <=? zlen buf) then scan_cstr (skipn (Z.to_nat pos) buf) else Undef.

(** The pointer [buffer] and the counter [nbyte] always advance together, so the pointer is
    [base + nbyte].  Each reader below takes and returns nbyte. *)
Definition step {A} (rd : list Z -> Z -> out A) (w : Z) (buf : list Z) (base nb : Z) : out (A * Z) :=
  do a <- rd buf (base + nb) ; do nb' <- chk32 (nb + w) ; Ok (a, nb').
(** A length-prefixed string: the bytes up to the first zero are taken, the pointer moves by
    the stored length (lines 415-419, 530-533, 550-553). *)
Definition step_str (buf : list Z) (base nb : Z) : out (string * Z) :=
  do (n, nb) <- step rd_i32 4 buf base nb ;
  do s <- rd_cstr buf (base + nb) ; do nb' <- chk32 (nb + n) ; Ok (s, nb').
Fixpoint steps {A} (st : Z -> out (A * Z)) (n : nat) (nb : Z) : out (list A * Z) :=
  match n with
  | O => Ok ([], nb)
  | S n' => do (a, nb) <- st nb ; do (l, nb) <- steps st n' nb ; Ok (a :: l, nb)
  end.
(** Count, then that many elements; the count is converted to unsigned by the call of
    allocate_vec_T (lines 442-479, 525-535). *)
Definition step_vec {A} (st : Z -> out (A * Z)) (buf : list Z) (base nb : Z) : out (list A * Z) :=
  do (n, nb) <- step rd_i32 4 buf base nb ; steps st (Z.to_nat (to_u32 n)) nb.
(** Rows, columns, elements (lines 480-524); allocate_mat_T makes a matrix of the 32-bit
    product of elements. *)
Definition step_mat {A} (st : Z -> out (A * Z)) (buf : list Z) (base nb : Z) : out (mat A * Z) :=
  do (nr, nb) <- step rd_i32 4 buf base nb ; do (nc, nb) <- step rd_i32 4 buf base nb ;
  do (l, nb) <- steps st (Z.to_nat (to_u32 (to_u32 nr * to_u32 nc))) nb ;
  Ok (Mat (to_u32 nr) (to_u32 nc) l, nb).

(** Result of a part without exceptions. *)
Definition done {A} (mk : A -> gc) (x : out (A * Z)) : out Z * gc :=
  match x with
  | Ok (a, nb) => (Ok nb, mk a)
  | Throw => (Throw, GNone)
  | Undef => (Undef, GNone)
  | Diverge => (Diverge, GNone)
  end.

(** Lines 540-543. *)
Fixpoint de_vec (rec : Z -> Z -> out Z * gc) (dim base : Z) (n : nat) (nb : Z) : out Z * list gc :=
  match n with
  | O => (Ok nb, [])
  | S n' =>
      match chk32 (dim - nb) with
      | Ok d =>
          match rec d (base + nb) with
          | (Ok sz, g) =>
              match chk32 (nb + sz) with
              | Ok nb' => let '(r, l) := de_vec rec dim base n' nb' in (r, g :: l)
              | _ => (Undef, g :: repeat GNone n')
              end
          | (r, g) => (r, g :: repeat GNone n')
          end
      | _ => (Undef, repeat GNone n)
      end
  end.
(** Lines 549-557: the entry of the key is created if missing, then overwritten. *)
Fixpoint de_map (rec : Z -> Z -> out Z * gc) (buf : list Z) (dim base : Z) (n : nat) (nb : Z)
    (m : list (string * gc)) : out Z * list (string * gc) :=
  match n with
  | O => (Ok nb, m)
  | S n' =>
      match step_str buf base nb with
      | Ok (key, nb) =>
          match chk32 (dim - nb) with
          | Ok d =>
              match rec d (base + nb) with
              | (Ok sz, g) =>
                  match chk32 (nb + sz) with
                  | Ok nb' => de_map rec buf dim base n' nb' (mset key g m)
                  | _ => (Undef, mset key g m)
                  end
              | (r, g) => (r, mset key g m)
              end
          | _ => (Undef, m)
          end
      | Throw => (Throw, m)
      | Undef => (Undef, m)
      | Diverge => (Diverge, m)
      end
  end.

(** The final check, lines 560-564. *)
Definition check_end (dim : Z) (x : out Z * gc) : out Z * gc :=
  match x with
  | (Ok nb, g) => (if nb <=? dim then Ok nb else Throw, g)
  | _ => x
  end.

(** The switch of de_serialize on the stored tag, lines 386-559; [nb] is 4. *)
Definition de_body (rec : Z -> Z -> out Z * gc) (buf : list Z) (dim base tag nb : Z) : out Z * gc :=
  match tag with
  | 0 => (Ok nb, GNone)
  | 1 => (Ok nb, GNone)
  | 2 => done GBool (step rd_bool 1 buf base nb)
  | 3 => done GInt (step rd_i32 4 buf base nb)
  | 4 => done GLong (step rd_i64 8 buf base nb)
  | 5 => done GReal (step rd_f64 8 buf base nb)
  | 6 => done GComplex (step rd_cplx 16 buf base nb)
  | 7 => done GStr (step_str buf base nb)
  | 8 => (Ok nb, GNone)
  | 9 =>
      (* reserve of a negative count throws std::length_error *)
      match step rd_i32 4 buf base nb with
      | Ok (n, nb) => if n <? 0 then (Throw, GVBool [])
                      else done GVBool (steps (step rd_bool 1 buf base) (Z.to_nat n) nb)
      | _ => (Undef, GNone)
      end
  | 10 => done GVInt (step_vec (step rd_i32 4 buf base) buf base nb)
  | 11 => done GVLong (step_vec (step rd_i64 8 buf base) buf base nb)
  | 12 => done GVReal (step_vec (step rd_f64 8 buf base) buf base nb)
  | 13 => done GVComplex (step_vec (step rd_cplx 16 buf base) buf base nb)
  | 14 => done GVStr (step_vec (step_str buf base) buf base nb)
  | 15 => done GMInt (step_mat (step rd_i32 4 buf base) buf base nb)
  | 16 => done GMLong (step_mat (step rd_i64 8 buf base) buf base nb)
  | 17 => done GMReal (step_mat (step rd_f64 8 buf base) buf base nb)
  | 18 =>
      (* no break at line 524: VEC_STRING follows and replaces the matrix *)
      match step_mat (step rd_cplx 16 buf base) buf base nb with
      | Ok (_, nb) => done GVStr (step_vec (step_str buf base) buf base nb)
      | _ => (Undef, GNone)
      end
  | 19 =>
      match step rd_i32 4 buf base nb with
      | Ok (n, nb) => let '(r, v) := de_vec rec dim base (Z.to_nat (to_u32 n)) nb in (r, GVec v)
      | _ => (Undef, GNone)
      end
  | 20 =>
      match step rd_i32 4 buf base nb with
      | Ok (n, nb) => let '(r, m) := de_map rec buf dim base (Z.to_nat n) nb [] in (r, GMap m)
      | _ => (Undef, GNone)
      end
  | _ => (Ok nb, GNone)
  end.

(** de_serialize( int32_t buffer_dim, uint8_t const * buffer ), lines 374-565, with the pointer
    at [base].  The recursion is not bounded by the buffer (a stored string length may be
    negative and move the pointer back), so the model has a recursion limit, whose exhaustion
    is [Diverge]. *)
Fixpoint de_ser (fuel : nat) (buf : list Z) (dim base : Z) : out Z * gc :=
  match fuel with
  | O => (Diverge, GNone)
  | S fuel' =>
      match rd_i32 buf base with
      | Ok tag => check_end dim (de_body (de_ser fuel' buf) buf dim base tag 4)
      | _ => (Undef, GNone)
      end
  end.
(** The member function: line 380 discards what the container held. *)
Definition de_serialize (fuel : nat) (dim : Z) (buf : list Z) (this : gc) : out Z * gc :=
  de_ser fuel buf dim 0.
(** de_serialize( std::vector<uint8_t> const & ), lines 368-372. *)
Definition de_serialize_vector (fuel : nat) (buf : list Z) (this : gc) : out Z * gc :=
  de_serialize fuel (to_i32 (zlen buf)) buf this.

Example serialize_ex :
  serialize false (GMap [("k"%string, GVec [GInt (-2); GStr "ab"%string])]) 60 (repeat 9 60) 0 =
    (Ok 41, [20;0;0;0; 1;0;0;0; 2;0;0;0; 107;0; 19;0;0;0; 2;0;0;0; 3;0;0;0; 254;255;255;255;
             7;0;0;0; 3;0;0;0; 97;98;0] ++ repeat 9 19) /\
  mem_size (GMap [("k"%string, GVec [GInt (-2); GStr "ab"%string])]) = Ok 41 /\
  fst (serialize false (GMap [("k"%string, GVec [GInt (-2); GStr "ab"%string])]) 40 (repeat 9 40) 0) = Throw /\
  de_serialize 9 60 (snd (serialize false (GMap [("k"%string, GVec [GInt (-2); GStr "ab"%string])]) 60 (repeat 9 60) 0)) (GInt 3)
   = (Ok 41, GMap [("k"%string, GVec [GInt (-2); GStr "ab"%string])]).
Proof. vmc. Qed.
