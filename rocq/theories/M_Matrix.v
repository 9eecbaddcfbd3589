(** Model of linalg/src/matrix.rs, linalg/src/linalg.rs and of the matrix-valued part
    of linalg/src/vector.rs.  The order of definitions differs from the source because
    matrix.rs and linalg.rs are mutually dependent modules. *)
From Coq Require Import List Arith ZArith NArith Bool.
From Verif Require Import M_Base M_Arith M_Utils M_Vector.
Import ListNotations.

(** linalg/src/matrix.rs:15-20 *)
Record Mat (X : Type) := mkMat {
  m_rows : nat;
  m_cols : nat;
  m_elems : list X;          (** [f32; M_MAX * N_MAX], row-major with stride cols *)
  m_initialized : bool
}.
Arguments mkMat {X} _ _ _ _.
Arguments m_rows {X} _.
Arguments m_cols {X} _.
Arguments m_elems {X} _.
Arguments m_initialized {X} _.

Section F32.
  Context {A : Arith}.
  Notation V := (Vec T).
  Notation M := (Mat T).
  Notation "'SM' X" := (ST M LinalgError X) (at level 10).
  Notation "'SV' X" := (ST V LinalgError X) (at level 10).

  (** linalg/src/matrix.rs:22-38 *)
  Definition mnew : M := mkMat 0 0 (repeat f0 (M_MAX * N_MAX)) false.

  (** linalg/src/matrix.rs:41-56 *)
  Definition m_init (rows cols : nat) : SM unit := fun self =>
    if m_initialized self then (self, Err AlreadyInit)
    else (lift (is_valid_rows_number rows) ;;!
          lift (is_valid_cols_number cols) ;;!
          modify (fun m => mkMat rows cols (m_elems m) true)) self.

  (** linalg/src/matrix.rs:59-71 *)
  Definition m_reinit (rows cols : nat) : SM unit := fun self =>
    if negb (m_initialized self) then (self, Err NotInit)
    else (modify (fun m => mkMat (m_rows m) (m_cols m) (m_elems m) false) ;;!
          m_init rows cols) self.

  (** linalg/src/matrix.rs:94-102 and 126-134 *)
  Definition m_get_rows (self : M) : res LinalgError nat :=
    if negb (m_initialized self) then Err NotInit else Ok (m_rows self).
  Definition m_get_cols (self : M) : res LinalgError nat :=
    if negb (m_initialized self) then Err NotInit else Ok (m_cols self).

  (** linalg/src/matrix.rs:105-123 *)
  Definition m_set_rows (rows : nat) : SM unit := fun self =>
    if negb (m_initialized self) then (self, Err NotInit)
    else if rows =? m_rows self then (self, Err UnchangedSize)
    else (lift (is_valid_rows_number rows) ;;!
          modify (fun m => mkMat rows (m_cols m) (m_elems m) (m_initialized m))) self.

  (** linalg/src/matrix.rs:137-182; the copy loop writes a local array *)
  Definition m_set_cols (cols : nat) : SM unit := fun self =>
    if negb (m_initialized self) then (self, Err NotInit)
    else if cols =? m_cols self then (self, Err UnchangedSize)
    else (lift (is_valid_cols_number cols) ;;!
          let! new_elements := lift (
            rfold (range 0 (m_rows self)) (fun row ne =>
              let old_offset := row * m_cols self in
              let new_offset := row * cols in
              rfold (range 0 (m_cols self)) (fun col ne =>
                let? x := arr_get (m_elems self) (old_offset + col) in
                arr_set ne (new_offset + col) x) ne)
              (repeat f0 (M_MAX * N_MAX))) in
          modify (fun m => mkMat (m_rows m) cols new_elements (m_initialized m))) self.

  (** linalg/src/matrix.rs:185-187 *)
  Definition m_is_initialized (self : M) : bool := m_initialized self.

  (** [self.elements[index] = value] *)
  Definition m_store (index : nat) (value : T) : SM unit := fun self =>
    match arr_set (E:=LinalgError) (m_elems self) index value with
    | Ok e => (mkMat (m_rows self) (m_cols self) e (m_initialized self), Ok tt)
    | Err e => (self, Err e)
    | Panic => (self, Panic)
    end.

  (** linalg/src/matrix.rs:190-208 *)
  Definition m_set (row col : nat) (value : T) : SM unit := fun self =>
    if negb (m_initialized self) then (self, Err NotInit)
    else (lift (map_err UtilsErr (is_valid_value value)) ;;!
          lift (is_valid_row row (m_rows self)) ;;!
          lift (is_valid_col col (m_cols self)) ;;!
          m_store (row * m_cols self + col) value) self.

  (** linalg/src/matrix.rs:211-227 *)
  Definition m_get (self : M) (row col : nat) : res LinalgError T :=
    if negb (m_initialized self) then Err NotInit
    else let? _ := is_valid_row row (m_rows self) in
         let? _ := is_valid_col col (m_cols self) in
         arr_get (m_elems self) (row * m_cols self + col).

  (** linalg/src/matrix.rs:248-261 *)
  Definition m_set_row (vect : V) (row : nat) : SM unit := fun self =>
    (let! n := lift (v_get_rows vect) in
     if negb (m_cols self =? n) then sthrow InvalidSize
     else for_ (range 0 (m_cols self)) (fun col =>
            let! x := lift (v_get vect col) in
            m_set row col x)) self.

  (** linalg/src/matrix.rs:264-277 *)
  Definition m_set_col (vect : V) (col : nat) : SM unit := fun self =>
    (let! n := lift (v_get_rows vect) in
     if negb (m_rows self =? n) then sthrow InvalidSize
     else for_ (range 0 (m_rows self)) (fun row =>
            let! x := lift (v_get vect row) in
            m_set row col x)) self.

  (** linalg/src/matrix.rs:280-293; mutates the vector *)
  Definition m_get_row (self : M) (row : nat) : SV unit := fun vect =>
    (let! n := reads v_get_rows in
     if negb (m_cols self =? n) then sthrow InvalidSize
     else for_ (range 0 (m_cols self)) (fun col =>
            let! x := lift (m_get self row col) in
            v_set col x)) vect.

  (** linalg/src/matrix.rs:296-309; mutates the vector *)
  Definition m_get_col (self : M) (col : nat) : SV unit := fun vect =>
    (let! n := reads v_get_rows in
     if negb (m_rows self =? n) then sthrow InvalidSize
     else for_ (range 0 (m_rows self)) (fun row =>
            let! x := lift (m_get self row col) in
            v_set row x)) vect.

  (** linalg/src/matrix.rs:312-319 *)
  Definition m_row_to_vector (self : M) (row : nat) : res LinalgError V :=
    exec (v_init (m_cols self) ;;! m_get_row self row) vnew.

  (** linalg/src/matrix.rs:322-329 *)
  Definition m_col_to_vector (self : M) (col : nat) : res LinalgError V :=
    exec (v_init (m_rows self) ;;! m_get_col self col) vnew.

  (** linalg/src/matrix.rs:332-349.  [row + 1] is evaluated after [set_rows]. *)
  Definition m_add_row (ck : bool) (vect : V) (row : nat) : SM unit := fun self =>
    (let! rows := lift (u8_add ck (m_rows self) 1) in
     lift (is_valid_rows_number rows) ;;!
     m_set_rows rows ;;!
     let! row1 := lift (u8_add ck row 1) in
     for_ (rev (range row1 rows)) (fun m =>
       let! cols := reads (fun s => Ok (m_cols s)) in
       for_ (range 0 cols) (fun col =>
         let! m1 := lift (u8_sub ck m 1) in
         let! x := reads (fun s => m_get s m1 col) in
         m_set m col x)) ;;!
     m_set_row vect row) self.

  (** linalg/src/matrix.rs:352-369 *)
  Definition m_add_col (ck : bool) (vect : V) (col : nat) : SM unit := fun self =>
    (let! cols := lift (u8_add ck (m_cols self) 1) in
     lift (is_valid_cols_number cols) ;;!
     m_set_cols cols ;;!
     let! col1 := lift (u8_add ck col 1) in
     for_ (rev (range col1 cols)) (fun n =>
       let! rows := reads (fun s => Ok (m_rows s)) in
       for_ (range 0 rows) (fun row =>
         let! n1 := lift (u8_sub ck n 1) in
         let! x := reads (fun s => m_get s row n1) in
         m_set row n x)) ;;!
     m_set_col vect col) self.

  (** linalg/src/matrix.rs:372-446 *)
  Definition m_del_row (ck : bool) (row : nat) : SM V := fun self =>
    (let! rows := lift (u8_sub ck (m_rows self) 1) in
     lift (is_valid_row row (m_rows self)) ;;!
     lift (is_valid_rows_number rows) ;;!
     let! deleted_row := lift (
       exec (v_init (m_cols self) ;;!
             for_ (range 0 (m_cols self)) (fun col =>
               let! element := lift (m_get self row col) in
               v_set col element)) vnew) in
     for_ (range (row + 1) (m_rows self)) (fun old_row =>
       let! cols := reads (fun s => Ok (m_cols s)) in
       for_ (range 0 cols) (fun col =>
         let! element := reads (fun s => m_get s old_row col) in
         m_set (old_row - 1) col element)) ;;!
     modify (fun m => mkMat rows (m_cols m) (m_elems m) (m_initialized m)) ;;!
     sret deleted_row) self.

  (** [for row in 0..self.rows { for col in 0..self.cols {
         self.set_element(row, col, e(row, col)?)? } }] *)
  Definition m_loop (e : M -> nat -> nat -> res LinalgError T) : SM unit := fun self =>
    for_ (range 0 (m_rows self)) (fun row =>
      for_ (range 0 (m_cols self)) (fun col =>
        let! x := reads (fun m => e m row col) in
        m_set row col x)) self.

  (** linalg/src/matrix.rs:463-472 *)
  Definition m_fill (value : T) : SM unit := m_loop (fun _ _ _ => Ok value).

  (** linalg/src/matrix.rs:475-488 *)
  Definition m_is_same_size_as (self other : M) : res LinalgError bool :=
    if negb (m_initialized self) || negb (m_initialized other) then Err NotInit
    else if negb (m_rows self =? m_rows other) || negb (m_cols self =? m_cols other)
         then Ok false else Ok true.

  (** linalg/src/matrix.rs:491-504 *)
  Definition m_is_square (self : M) : res LinalgError bool :=
    if negb (m_initialized self) then Err NotInit
    else if negb (m_rows self =? m_cols self) then Ok false else Ok true.

  (** linalg/src/matrix.rs:507-529 *)
  Definition m_is_equal_to (self other : M) (deviation : T) : res LinalgError bool :=
    let? same := m_is_same_size_as self other in
    if negb same then Ok false
    else rall (range 0 (m_rows self)) (fun row =>
         rall (range 0 (m_cols self)) (fun col =>
           let? element := m_get self row col in
           let? other_element := m_get other row col in
           allclose_l element other_element deviation)).

  (** the guard [if !self.is_square()? { return Err(NotSquare) }] *)
  Definition m_guard_square (self : M) : res LinalgError unit :=
    let? sq := m_is_square self in
    if negb sq then Err NotSquare else Ok tt.
  (** the guards on sizes, as in the vector case *)
  Definition m_guard_same (other : M) : SM unit := fun self =>
    (let! same := lift (m_is_same_size_as self other) in
     if negb same then sthrow NotSameSize else sret tt) self.
  Definition m_guard_same2 (a b : M) : SM unit := fun self =>
    (let! same1 := lift (m_is_same_size_as self a) in
     if negb same1 then sthrow NotSameSize
     else let! same2 := lift (m_is_same_size_as self b) in
          if negb same2 then sthrow NotSameSize else sret tt) self.

  (** linalg/src/matrix.rs:532-551 *)
  Definition m_fill_identity : SM unit :=
    reads m_guard_square ;;!
    m_loop (fun _ row col => Ok (if row =? col then f1 else f0)).

  (** linalg/src/matrix.rs:554-571 *)
  Definition m_copy_from (other : M) : SM unit :=
    m_guard_same other ;;!
    m_loop (fun _ row col => m_get other row col).

  (** linalg/src/matrix.rs:574-581 *)
  Definition m_duplicate (self : M) : res LinalgError M :=
    exec (m_init (m_rows self) (m_cols self) ;;! m_copy_from self) mnew.

  (** linalg/src/matrix.rs:584-602 *)
  Definition m_add (matrix1 matrix2 : M) : SM unit :=
    m_guard_same2 matrix1 matrix2 ;;!
    m_loop (fun _ row col => let? a := m_get matrix1 row col in
                             let? b := m_get matrix2 row col in Ok (a + b)%F).

  (** linalg/src/matrix.rs:605-623 *)
  Definition m_add_in_place (other : M) : SM unit :=
    m_guard_same other ;;!
    m_loop (fun self row col => let? a := m_get self row col in
                                let? b := m_get other row col in Ok (a + b)%F).

  (** linalg/src/matrix.rs:626-639 *)
  Definition m_add_new (self other : M) : res LinalgError M :=
    let? same := m_is_same_size_as self other in
    if negb same then Err NotSameSize
    else exec (m_init (m_rows self) (m_cols self) ;;! m_add self other) mnew.

  (** linalg/src/matrix.rs:642-660 *)
  Definition m_add_scalar (other : M) (scalar : T) : SM unit :=
    m_guard_same other ;;!
    m_loop (fun _ row col => let? a := m_get other row col in Ok (a + scalar)%F).

  (** linalg/src/matrix.rs:663-675 *)
  Definition m_add_scalar_in_place (scalar : T) : SM unit :=
    m_loop (fun self row col => let? a := m_get self row col in Ok (a + scalar)%F).

  (** linalg/src/matrix.rs:678-699: the loop runs over the dimensions of [self], which
      are those just given to the result *)
  Definition m_add_scalar_new (self : M) (scalar : T) : res LinalgError M :=
    if negb (m_initialized self) then Err NotInit
    else exec (m_init (m_rows self) (m_cols self) ;;!
               m_loop (fun _ row col => let? a := m_get self row col in Ok (a + scalar)%F)) mnew.

  (** linalg/src/matrix.rs:702-720 *)
  Definition m_sub (matrix1 matrix2 : M) : SM unit :=
    m_guard_same2 matrix1 matrix2 ;;!
    m_loop (fun _ row col => let? a := m_get matrix1 row col in
                             let? b := m_get matrix2 row col in Ok (a - b)%F).

  (** linalg/src/matrix.rs:723-741 *)
  Definition m_sub_in_place (other : M) : SM unit :=
    m_guard_same other ;;!
    m_loop (fun self row col => let? a := m_get self row col in
                                let? b := m_get other row col in Ok (a - b)%F).

  (** linalg/src/matrix.rs:744-757 *)
  Definition m_sub_new (self other : M) : res LinalgError M :=
    let? same := m_is_same_size_as self other in
    if negb same then Err NotSameSize
    else exec (m_init (m_rows self) (m_cols self) ;;! m_sub self other) mnew.

  (** linalg/src/matrix.rs:760-778 *)
  Definition m_sub_scalar (other : M) (scalar : T) : SM unit :=
    m_guard_same other ;;!
    m_loop (fun _ row col => let? a := m_get other row col in Ok (a - scalar)%F).

  (** linalg/src/matrix.rs:781-793 *)
  Definition m_sub_scalar_in_place (scalar : T) : SM unit :=
    m_loop (fun self row col => let? a := m_get self row col in Ok (a - scalar)%F).

  (** linalg/src/matrix.rs:796-809 *)
  Definition m_sub_scalar_new (self : M) (scalar : T) : res LinalgError M :=
    if negb (m_initialized self) then Err NotInit
    else exec (m_init (m_rows self) (m_cols self) ;;! m_sub_scalar self scalar) mnew.

  (** linalg/src/matrix.rs:813-834; [element] is the accumulator, stored after each term.
      The accumulator and [self] are threaded together through the innermost loop. *)
  Definition m_mul (matrix1 matrix2 : M) : SM unit := fun self =>
    if negb (m_cols matrix1 =? m_rows matrix2) || negb (m_rows self =? m_rows matrix1)
       || negb (m_cols self =? m_cols matrix2)
    then (self, Err InvalidSize)
    else
      for_ (range 0 (m_rows matrix1)) (fun row =>
        for_ (range 0 (m_cols matrix2)) (fun col2 self =>
          let '((self', _), r) :=
            for_ (S := M * T) (range 0 (m_cols matrix1)) (fun col1 =>
              let! element1 := lift (m_get matrix1 row col1) in
              let! element2 := lift (m_get matrix2 col1 col2) in
              modify (fun s => (fst s, (snd s + element1 * element2)%F)) ;;!
              (fun s => let (m', r) := m_set row col2 (snd s) (fst s) in ((m', snd s), r)))
            (self, f0) in (self', r))) self.

  (** linalg/src/matrix.rs:837-847 *)
  Definition m_mul_new (self other : M) : res LinalgError M :=
    let? m := m_get_rows self in
    let? k := m_get_cols other in
    exec (m_init m k ;;! m_mul self other) mnew.

  (** linalg/src/matrix.rs:850-890 *)
  Definition m_transpose : SM unit := fun self =>
    if negb (m_initialized self) then (self, Err NotInit)
    else
      (let! sq := reads m_is_square in
       if sq then
         for_ (range 0 (m_rows self)) (fun row =>
           for_ (range (row + 1) (m_cols self)) (fun col =>
             let! temp_element := reads (fun s => m_get s row col) in
             let! x := reads (fun s => m_get s col row) in
             m_set row col x ;;!
             m_set col row temp_element))
       else
         let! temp := lift (
           exec (m_init (m_cols self) (m_rows self) ;;!
                 for_ (range 0 (m_rows self)) (fun row =>
                   for_ (range 0 (m_cols self)) (fun col =>
                     let! x := lift (m_get self row col) in
                     m_set col row x))) mnew) in
         modify (fun m => mkMat (m_cols m) (m_rows m) (m_elems m) (m_initialized m)) ;;!
         m_copy_from temp) self.

  (** linalg/src/matrix.rs:893-898 *)
  Definition m_transpose_new (self : M) : res LinalgError M :=
    let? d := m_duplicate self in
    exec m_transpose d.

  (** linalg/src/matrix.rs:939-949 *)
  Definition m_mul_by_scalar_in_place (scalar : T) : SM unit :=
    m_loop (fun self row col => let? a := m_get self row col in Ok (a * scalar)%F).

  (** linalg/src/matrix.rs:952-962 *)
  Definition m_power_elements (exponent : T) : SM unit :=
    m_loop (fun self row col => let? a := m_get self row col in Ok (fpow a exponent)).

  (** linalg/src/matrix.rs:973-988 *)
  Definition m_trace (self : M) : res LinalgError T :=
    let? _ := m_guard_square self in
    rfold (range 0 (min_u8 (m_rows self) (m_cols self))) (fun i trace =>
      let? a := m_get self i i in Ok (trace + a)%F) f0.

  (** linalg/src/vector.rs:548-564 *)
  Definition v_outer_product (self other : V) : res LinalgError M :=
    let? m := v_get_rows self in
    let? n := v_get_rows other in
    exec (m_init m n ;;!
          for_ (range 0 m) (fun row =>
            for_ (range 0 n) (fun col =>
              let! a := lift (v_get self row) in
              let! b := lift (v_get other col) in
              m_set row col (a * b)%F))) mnew.

  (** linalg/src/vector.rs:646-655 *)
  Definition v_convert_to_matrix (self : V) : res LinalgError M :=
    let? rows := v_get_rows self in
    exec (m_init rows 1 ;;! m_set_col self 0) mnew.

  (** linalg/src/linalg.rs:7-53.  The local variables [lu] and [p] form the state. *)
  Definition lu_get (a b : nat) (s : M * Vec nat) : res LinalgError T :=
    (** lu.get_element(p.get_element(a)?, b)? *)
    let? i := v_get (snd s) a in m_get (fst s) i b.
  Definition lu_set (a b : nat) (x : T) : ST (M * Vec nat) LinalgError unit :=
    (** lu.set_element(p.get_element(a)?, b, x)? *)
    let! i := reads (fun s => v_get (snd s) a) in
    zoom fst (fun m s => (m, snd s)) (m_set i b x).
  Definition p_set (a i : nat) : ST (M * Vec nat) LinalgError unit :=
    zoom snd (fun p s => (fst s, p)) (vu_set a i).

  (** the body of the main loop, linalg/src/linalg.rs:19-50 *)
  Definition lup_step (rows cols row : nat) : ST (M * Vec nat) LinalgError unit :=
    let! row_max := reads (fun s =>
      rfold (range (row + 1) cols) (fun col row_max =>
        let? x := lu_get col row s in
        let? y := lu_get row_max 0 s in
        Ok (if (x >? y)%F then col else row_max)) row) in
    let! tmp := reads (fun s => v_get (snd s) row) in
    let! pm := reads (fun s => v_get (snd s) row_max) in
    p_set row pm ;;!
    p_set row_max tmp ;;!
    let! piv := reads (lu_get row row) in
    if (fabs piv <? EPSILON)%F then sthrow Singular
    else
      for_ (range (row + 1) rows) (fun col =>
        let! x := reads (lu_get col row) in
        let! y := reads (lu_get row row) in
        lu_set col row (x / y)%F ;;!
        for_ (range (row + 1) rows) (fun k =>
          let! element := reads (lu_get col k) in
          let! a := reads (lu_get row k) in
          let! b := reads (lu_get col row) in
          lu_set col k (element - a * b)%F)).

  Definition lup (mat : M) : res LinalgError (M * Vec nat) :=
    let? rows := m_get_rows mat in
    let? cols := m_get_cols mat in
    let? lu := exec (m_init rows cols ;;! m_copy_from mat) mnew in
    let? p := exec (v_init rows ;;! for_ (range 0 rows) (fun row => vu_set row row)) vu_new in
    exec (for_ (range 0 (rows - 1)) (lup_step rows cols)) (lu, p).

  (** linalg/src/linalg.rs:55-89 *)
  Definition solve (mat : M) (b : V) (p : Vec nat) : res LinalgError V :=
    let? _ := m_guard_square mat in
    let? n := m_get_rows mat in
    let sub_step (row col : nat) : SV unit :=
      let! xr := reads (fun x => v_get x row) in
      let! i := lift (v_get p row) in
      let! a := lift (m_get mat i col) in
      let! xc := reads (fun x => v_get x col) in
      v_set row (xr - a * xc)%F in
    exec (
      v_init n ;;!
      for_ (range 0 n) (fun row =>
        let! i := lift (v_get p row) in
        let! bi := lift (v_get b i) in
        v_set row bi ;;!
        for_ (range 0 row) (fun col => sub_step row col)) ;;!
      for_ (rev (range 0 n)) (fun row =>
        for_ (range (row + 1) n) (fun col => sub_step row col) ;;!
        let! i := lift (v_get p row) in
        let! d := lift (m_get mat i row) in
        if (fabs d >? EPSILON)%F then
          let! xr := reads (fun x => v_get x row) in
          v_set row (xr / d)%F
        else sthrow Unsolvable)) vnew.

  (** linalg/src/matrix.rs:901-936; state: self and the local [tmp_vec] *)
  Definition to_not_inversible {B : Type} (r : res LinalgError B) : res LinalgError B :=
    map_err (fun _ => NotInversible) r.
  Definition on_self {W B} (c : SM B) : ST (M * W) LinalgError B :=
    zoom fst (fun m s => (m, snd s)) c.
  Definition on_tmp {W B} (c : ST W LinalgError B) : ST (M * W) LinalgError B :=
    zoom snd (fun v s => (fst s, v)) c.
  Definition m_invert : SM unit := fun self =>
    (reads m_guard_square ;;!
     let! tmp_vec := lift (exec (v_init (m_rows self)) vnew) in
     let! (lu, p) := lift (to_not_inversible (lup self)) in
     (fun s =>
        let '((s', _), r) :=
          for_ (S := M * V) (range 0 (m_rows self)) (fun row =>
            on_tmp (v_set row f1) ;;!
            let! x := reads (fun s => to_not_inversible (solve lu (snd s) p)) in
            for_ (range 0 (m_cols self)) (fun col =>
              let! e := lift (v_get x col) in
              on_self (m_set row col e)) ;;!
            on_tmp (v_set row f0)) (s, tmp_vec) in (s', r)) ;;!
     m_transpose) self.

  (** linalg/src/matrix.rs:991-1075; state: l, r and the accumulator [sum] *)
  Record LRs := mkLR { lr_l : M; lr_r : M; lr_sum : T }.
  Definition on_l {B} (c : SM B) : ST LRs LinalgError B :=
    zoom lr_l (fun m s => mkLR m (lr_r s) (lr_sum s)) c.
  Definition on_r {B} (c : SM B) : ST LRs LinalgError B :=
    zoom lr_r (fun m s => mkLR (lr_l s) m (lr_sum s)) c.
  Definition set_sum (f : T -> T) : ST LRs LinalgError unit :=
    modify (fun s => mkLR (lr_l s) (lr_r s) (f (lr_sum s))).
  Definition m_lr (self : M) : res LinalgError (M * M) :=
    let? _ := m_guard_square self in
    let n := m_rows self in
    let? l0 := exec (m_init n n) mnew in
    let? r0 := exec (m_init n n) mnew in
    let? s := exec (
      on_l m_fill_identity ;;!
      for_ (range 0 n) (fun col =>
        let! element := lift (m_get self 0 col) in
        on_r (m_set 0 col element)) ;;!
      for_ (range 0 n) (fun row =>
        let! r_element := reads (fun s => m_get (lr_r s) 0 0) in
        lift (allclose_l r_element f0 EPSILON) ;;!
        let! a := lift (m_get self row 0) in
        on_l (m_set row 0 (a / r_element)%F)) ;;!
      for_ (range 0 n) (fun col =>
        for_ (range col n) (fun j =>
          for_ (range 0 col) (fun k =>
            let! x := reads (fun s => m_get (lr_l s) col k) in
            let! y := reads (fun s => m_get (lr_r s) k j) in
            set_sum (fun sum => sum + x * y)%F) ;;!
          let! a := lift (m_get self col j) in
          let! sum := reads (fun s => Ok (lr_sum s)) in
          on_r (m_set col j (a - sum)%F)) ;;!
        let! r_element := reads (fun s => m_get (lr_r s) col col) in
        lift (allclose_l r_element f0 EPSILON) ;;!
        for_ (range (col + 1) n) (fun row =>
          set_sum (fun _ => f0) ;;!
          for_ (range 0 col) (fun k =>
            let! x := reads (fun s => m_get (lr_l s) row k) in
            let! y := reads (fun s => m_get (lr_r s) k col) in
            set_sum (fun sum => sum + x * y)%F) ;;!
          let! a := lift (m_get self row col) in
          let! sum := reads (fun s => Ok (lr_sum s)) in
          on_l (m_set row col ((a - sum) / r_element)%F))))
      (mkLR l0 r0 f0) in
    Ok (lr_l s, lr_r s).

  (** linalg/src/matrix.rs:1078-1145 (lr_r holds U) *)
  Definition m_lu_crout (self : M) : res LinalgError (M * M) :=
    let? _ := m_guard_square self in
    let n := m_rows self in
    let? l0 := exec (m_init n n) mnew in
    let? u0 := exec (m_init n n) mnew in
    let? s := exec (
      on_l m_fill_identity ;;!
      for_ (range 0 n) (fun row =>
        for_ (range row n) (fun col =>
          for_ (range 0 col) (fun k =>
            let! x := reads (fun s => m_get (lr_l s) row k) in
            let! y := reads (fun s => m_get (lr_r s) k col) in
            set_sum (fun sum => sum + x * y)%F) ;;!
          let! a := lift (m_get self row col) in
          let! sum := reads (fun s => Ok (lr_sum s)) in
          on_r (m_set row col (a - sum)%F)) ;;!
        set_sum (fun _ => f0) ;;!
        for_ (range (row + 1) n) (fun col =>
          for_ (range 0 col) (fun k =>
            let! x := reads (fun s => m_get (lr_l s) col k) in
            let! y := reads (fun s => m_get (lr_r s) k row) in
            set_sum (fun sum => sum + x * y)%F) ;;!
          let! u_element := reads (fun s => m_get (lr_r s) row row) in
          let! close := lift (allclose_l u_element f0 EPSILON) in
          if negb close then sthrow Singular
          else
            let! a := lift (m_get self col row) in
            let! sum := reads (fun s => Ok (lr_sum s)) in
            on_l (m_set col row ((a - sum) / u_element)%F))))
      (mkLR l0 u0 f0) in
    Ok (lr_l s, lr_r s).

  (** linalg/src/matrix.rs:1158-1208 *)
  Definition m_qr_decomp (self : M) : res LinalgError (M * M) :=
    let rows := m_rows self in
    let cols := m_cols self in
    let? q0 := exec (m_init rows cols ;;! m_copy_from self) mnew in
    let? r0 := exec (m_init rows cols) mnew in
    let? tmp0 := exec (m_init rows cols) mnew in
    let? q := exec (
      for_break (range 0 cols) (fun col =>
        for_ (range 0 col) (fun row =>
          let! dot_product := reads (fun q =>
            rfold (range 0 rows) (fun k acc =>
              let? x := m_get q k row in
              let? y := m_get q k col in Ok (acc + x * y)%F) f0) in
          for_ (range 0 rows) (fun k =>
            let! x := reads (fun q => m_get q k col) in
            let! y := reads (fun q => m_get q k row) in
            m_set k col (x - dot_product * y)%F)) ;;!
        let! s := reads (fun q =>
          rfold (range 0 rows) (fun row acc =>
            let? x := m_get q row col in
            let? y := m_get q row col in Ok (acc + x * y)%F) f0) in
        let norm := fsqrt s in
        if (norm >? EPSILON)%F then
          for_ (range 0 rows) (fun k =>
            let! x := reads (fun q => m_get q k col) in
            m_set k col (x / norm)%F) ;;!
          sret true
        else sret false)) q0 in
    let? tmp := exec (m_copy_from q ;;! m_transpose) tmp0 in
    let? r := exec (m_mul tmp self) r0 in
    Ok (q, r).

  (** linalg/src/matrix.rs:1218-1231 *)
  Definition m_is_upper_triangular (self : M) : res LinalgError bool :=
    rall (range 1 (m_rows self)) (fun row =>
      rall (range 0 row) (fun col =>
        let? a := m_get self row col in allclose_l a f0 EPSILON)).

  (** linalg/src/matrix.rs:1234-1247 *)
  Definition m_is_lower_triangular (ck : bool) (self : M) : res LinalgError bool :=
    let? n := u8_sub ck (m_rows self) 1 in
    rall (range 0 n) (fun row =>
      rall (range (row + 1) (m_cols self)) (fun col =>
        let? a := m_get self row col in allclose_l a f0 EPSILON)).

  (** linalg/src/matrix.rs:1250-1263 *)
  Definition m_calculate_frobenius_norm (self : M) : res LinalgError T :=
    let? s := rfold (range 0 (m_rows self)) (fun row acc =>
                rfold (range 0 (m_cols self)) (fun col acc =>
                  let? a := m_get self row col in
                  let? b := m_get self row col in Ok (acc + a * b)%F) acc) f0 in
    Ok (fsqrt s).

  (** linalg/src/matrix.rs:1266-1294 *)
  Definition m_det (self : M) : res LinalgError T :=
    let? _ := m_guard_square self in
    let? (lu, p) := lup self in
    let? determinant := rfold (range 0 (m_rows self)) (fun row d =>
      let? i := v_get p row in
      let? x := m_get lu i row in Ok (d * x)%F) f1 in
    let? col := rfold (range 0 (m_rows self)) (fun row col =>
      let? i := v_get p row in
      Ok (if negb (i =? row) then col + 1 else col)) 0 in
    Ok (if negb (col =? 0) && ((col - 1) mod 2 =? 1) then fneg determinant else determinant).

  (** linalg/src/matrix.rs:1306-1344.  [usize] arithmetic stays below 24. *)
  Record PermSt := mkPerm {
    ps_perms : list (list nat);     (** [[usize; N_MAX]; FACTORIAL_MAX_N] *)
    ps_cur : list nat;              (** current_permutation *)
    ps_used : list bool;
    ps_index : nat
  }.
  Notation SP := (ST PermSt LinalgError unit).
  Definition perm_write (i : nat) : SP := fun s =>
    match (let? v := arr_get (ps_cur s) i in
           let? row := arr_get (ps_perms s) (ps_index s) in
           let? row' := arr_set row i v in
           arr_set (E:=LinalgError) (ps_perms s) (ps_index s) row') with
    | Ok p => (mkPerm p (ps_cur s) (ps_used s) (ps_index s), Ok tt)
    | Err e => (s, Err e)
    | Panic => (s, Panic)
    end.
  Definition used_set (i : nat) (b : bool) : SP := fun s =>
    match arr_set (E:=LinalgError) (ps_used s) i b with
    | Ok u => (mkPerm (ps_perms s) (ps_cur s) u (ps_index s), Ok tt)
    | Err e => (s, Err e)
    | Panic => (s, Panic)
    end.
  Definition cur_set (d i : nat) : SP := fun s =>
    match arr_set (E:=LinalgError) (ps_cur s) d i with
    | Ok c => (mkPerm (ps_perms s) c (ps_used s) (ps_index s), Ok tt)
    | Err e => (s, Err e)
    | Panic => (s, Panic)
    end.
  (** [permute] of lines 1315-1339; [fuel] bounds the recursion depth, which is
      [n - depth]; exhaustion is a [Panic] and never happens from [permute n n 0] *)
  Fixpoint permute (fuel n depth : nat) : SP :=
    if depth =? n then
      for_ (range 0 n) perm_write ;;!
      modify (fun s => mkPerm (ps_perms s) (ps_cur s) (ps_used s) (ps_index s + 1))
    else
      match fuel with
      | 0 => lift Panic
      | S fuel' =>
          for_ (range 0 n) (fun i =>
            let! u := reads (fun s => arr_get (ps_used s) i) in
            if negb u then
              used_set i true ;;!
              cur_set depth i ;;!
              permute fuel' n (depth + 1) ;;!
              used_set i false
            else sret tt)
      end.
  Definition FACTORIAL_MAX_N : nat := 24.   (** matrix.rs:11, factorial(4) *)
  Definition generate_permutations (row : nat) : res LinalgError (list (list nat)) :=
    let? _ := is_valid_rows_number row in
    let? s := exec (permute row row 0)
                (mkPerm (repeat (repeat 0 N_MAX) FACTORIAL_MAX_N) (repeat 0 N_MAX)
                        (repeat false N_MAX) 0) in
    Ok (ps_perms s).

  (** linalg/src/matrix.rs:1348-1360 *)
  Definition count_inversions (permutation : list nat) (n : nat) : res LinalgError nat :=
    rfold (range 0 n) (fun i acc =>
      rfold (range (i + 1) n) (fun j acc =>
        let? x := arr_get permutation i in
        let? y := arr_get permutation j in
        Ok (if y <? x then acc + 1 else acc)) acc) 0.

  (** linalg/src/matrix.rs:1364-1393 *)
  Definition m_det_naive (self : M) : res LinalgError T :=
    let? _ := m_guard_square self in
    let? permutations := generate_permutations (m_rows self) in
    let? f := factorial true (m_rows self) in
    (fix go (l : list (list nat)) (determinant : T) : res LinalgError T :=
       match l with
       | [] => Ok determinant
       | permutation :: l' =>
           let? product := rfold (range 0 (m_rows self)) (fun row product =>
             let? c := arr_get permutation row in
             let? x := m_get self row c in Ok (product * x)%F) f1 in
           let? inversions := count_inversions permutation (m_rows self) in
           let sign := if inversions mod 2 =? 0 then f1 else fm1 in
           go l' (determinant + sign * product)%F
       end) (firstn (N.to_nat f) permutations) f0.

  (** linalg/src/matrix.rs:1440-1457 *)
  Definition m_is_symmetric (self : M) : res LinalgError bool :=
    let? sq := m_is_square self in
    if negb sq then Ok false
    else rall (range 0 (m_rows self)) (fun row =>
         rall (range 0 (m_cols self)) (fun col =>
           let? a := m_get self row col in
           let? b := m_get self col row in
           allclose_l a b EPSILON)).

  (** linalg/src/matrix.rs:1460-1486 *)
  Definition m_is_positive_definite (self : M) : res LinalgError bool :=
    let? sym := m_is_symmetric self in
    if negb sym then Err NotSymetric
    else rall (range 0 (m_rows self)) (fun k =>
      let? tmp := exec (m_init (k + 1) (k + 1) ;;!
                        for_ (range 0 (k + 1)) (fun row =>
                          for_ (range 0 (k + 1)) (fun col =>
                            let! x := lift (m_get self row col) in
                            m_set row col x))) mnew in
      let? d := m_det tmp in
      Ok (negb (d <? f0)%F)).

  (** linalg/src/matrix.rs:1489-1560 *)
  Definition m_chol (self : M) : res LinalgError M :=
    let? pd := m_is_positive_definite self in
    if negb pd then Err NotPositiveDefinite
    else
      exec (m_init (m_rows self) (m_cols self) ;;!
        for_ (range 0 (m_cols self)) (fun col =>
          let! s1 := reads (fun l => rfold (range 0 col) (fun k acc =>
            let? x := m_get l col k in
            let? y := m_get l col k in Ok (acc + x * y)%F) f0) in
          let! d := reads (fun l => m_get l col col) in
          (if (d <? EPSILON)%F then m_set col col EPSILON else sret tt) ;;!
          for_ (range 0 (m_rows self)) (fun row =>
            let! s2 := reads (fun l => rfold (range 0 col) (fun k acc =>
              let? x := m_get l row k in
              let? y := m_get l col k in Ok (acc + x * y)%F) f0) in
            let! e := reads (fun l =>
              if row =? col then
                let? a := m_get self row col in Ok (fsqrt (a - s1)%F)
              else
                let? d := m_get l col col in
                let? a := m_get self row col in Ok ((f1 / d) * (a - s2))%F) in
            m_set row col e))) mnew.

  (** linalg/src/matrix.rs:1573-1596 *)
  Definition m_dlyap (self q : M) : res LinalgError M :=
    let? _ := m_guard_square self in
    let? pd := m_is_positive_definite q in
    if negb pd then Err NotPositiveDefinite
    else
      let? same := m_is_same_size_as self q in
      if negb same then Err NotSameSize
      else exec (m_init (m_rows self) (m_cols self)) mnew.

  (** the common tail of is_orthogonal and is_so_n: R*R^T against the identity *)
  Definition m_times_transpose_is_identity (self : M) : res LinalgError bool :=
    let m := m_rows self in
    let? d := m_duplicate self in
    let? transposed_mat := exec m_transpose d in
    let? identity_mat := exec (m_init m m ;;! m_fill_identity) mnew in
    let? result_mat := m_mul_new self transposed_mat in
    m_is_equal_to result_mat identity_mat EPSILON.

  (** linalg/src/matrix.rs:1599-1628 *)
  Definition m_is_orthogonal (self : M) : res LinalgError bool :=
    let? d := m_det self in
    let? close := allclose_l (fabs d) f1 EPSILON in
    if negb close then Ok false else m_times_transpose_is_identity self.

  (** linalg/src/matrix.rs:1631-1660 *)
  Definition m_is_so_n (self : M) : res LinalgError bool :=
    let? d := m_det self in
    let? close := allclose_l d f1 EPSILON in
    if negb close then Ok false else m_times_transpose_is_identity self.

  (** linalg/src/matrix.rs:1664-1697; i8 arithmetic in Z with explicit range checks *)
  Definition m_diag (ck : bool) (self : M) (k : option Z) : res LinalgError V :=
    let m := Z.of_nat (m_rows self) in
    let n := Z.of_nat (m_cols self) in
    let k := match k with Some k => k | None => 0%Z end in
    let? diag_len :=
      (if (0 <=? k)%Z then let? d := i8_chk ck (n - k)%Z in Ok (min_i8 m d)
       else let? d := i8_chk ck (m + k)%Z in Ok (min_i8 d n)) in
    if (diag_len <=? 0)%Z then Err InvalidDiagonalLength
    else
      exec (v_init (Z.to_nat diag_len) ;;!
            for_ (range 0 (Z.to_nat diag_len)) (fun i =>
              let zi := Z.of_nat i in
              let! row := lift (if (0 <=? k)%Z then Ok zi else i8_chk ck (zi - k)%Z) in
              let! col := lift (if (0 <=? k)%Z then i8_chk ck (zi + k)%Z else Ok zi) in
              let! element := lift (m_get self (Z.to_nat (row mod 256)) (Z.to_nat (col mod 256))) in
              v_set i element)) vnew.

  (** linalg/src/matrix.rs:1706-1727; the answer of is_so_n is ignored, its error is not *)
  Definition m_log (self : M) : res LinalgError M :=
    let? _ := m_is_so_n self in
    let? tr := m_trace self in
    let theta := facos ((tr - f1) / f2)%F in
    let? d := m_duplicate self in
    let? transposed_mat := exec m_transpose d in
    let? result_mat := m_sub_new self transposed_mat in
    exec (m_mul_by_scalar_in_place (theta / (f2 * fsin theta))%F) result_mat.

  (** linalg/src/matrix.rs:1736-1752 *)
  Definition m_log_in_place : SM unit :=
    reads m_is_so_n ;;!
    let! tr := reads m_trace in
    let theta := facos ((tr - f1) / f2)%F in
    let! d := reads m_duplicate in
    let! transposed_mat := lift (exec m_transpose d) in
    m_sub_in_place transposed_mat ;;!
    m_mul_by_scalar_in_place (theta / (f2 * fsin theta))%F.

  (** linalg/src/matrix.rs:1761-1775 *)
  Definition m_adjugate_in_place : SM unit :=
    reads m_is_so_n ;;!
    let! determinant := reads m_det in
    m_transpose ;;!
    m_mul_by_scalar_in_place determinant.

  (** linalg/src/linalg.rs:92-210.  State of the iteration: a, eigenvectors,
      eigenvalues, previous_eigenvalues.  [i], [q], [r], [tmp], [delta_eigenvalues] are
      completely rewritten in every iteration before being read and are recomputed. *)
  Record EigSt := mkEig { eg_a : M; eg_vectors : M; eg_values : V; eg_prev : V }.
  Definition eig_step (ck : bool) (m : nat) (shifted : bool) : ST EigSt LinalgError bool :=
    let! tmp := lift (exec (m_init m m) mnew) in
    let! a_q := (if shifted then
        let! m2 := lift (u8_sub ck m 2) in
        let! m2' := lift (u8_sub ck m 2) in
        let! a_ := reads (fun s => m_get (eg_a s) m2 m2') in
        let! b := reads (fun s => m_get (eg_a s) m2 (m - 1)) in
        let! c := reads (fun s => m_get (eg_a s) (m - 1) (m - 1)) in
        let delta := (((a_ - c) / f2) * ((a_ - c) / f2) + b * b)%F in
        let s := (if a_ <? c then c - delta / (fabs b + fsqrt delta)
                  else c + delta / (fabs b + fsqrt delta))%F in
        let! i := lift (exec (m_init m m ;;! m_fill_identity ;;! m_mul_by_scalar_in_place s) mnew) in
        let! a0 := reads (fun s => Ok (eg_a s)) in
        let! tmp1 := lift (exec (m_sub a0 i) tmp) in
        let! a1 := lift (exec (m_copy_from tmp1) a0) in
        let! (q_tmp, r_tmp) := lift (m_qr_decomp a1) in
        let! q := lift (exec (m_init m m ;;! m_copy_from q_tmp) mnew) in
        let! r := lift (exec (m_init m m ;;! m_copy_from r_tmp) mnew) in
        let! tmp2 := lift (exec (m_mul r q) tmp1) in
        let! a2 := lift (exec (m_add tmp2 i) a1) in
        lift (exec m_fill_identity i) ;;!
        sret (a2, q)
      else
        let! a0 := reads (fun s => Ok (eg_a s)) in
        let! (q_tmp, r_tmp) := lift (m_qr_decomp a0) in
        let! q := lift (exec (m_init m m ;;! m_copy_from q_tmp) mnew) in
        let! r := lift (exec (m_init m m ;;! m_copy_from r_tmp) mnew) in
        let! a1 := lift (exec (m_mul r q) a0) in
        sret (a1, q)) in
    let '(a, q) := a_q in
    modify (fun s => mkEig a (eg_vectors s) (eg_values s) (eg_prev s)) ;;!
    let! ev0 := reads (fun s => Ok (eg_vectors s)) in
    let! tmp3 := lift (exec (m_init m m ;;! m_mul ev0 q) mnew) in
    let! ev1 := lift (exec (m_copy_from tmp3) ev0) in
    modify (fun s => mkEig (eg_a s) ev1 (eg_values s) (eg_prev s)) ;;!
    let! vals0 := reads (fun s => Ok (eg_values s)) in
    let! vals := lift (exec (for_ (range 0 m) (fun k =>
                     let! x := lift (m_get a k k) in v_set k x)) vals0) in
    let! prev0 := reads (fun s => Ok (eg_prev s)) in
    let! delta := lift (exec (v_init m ;;! v_sub vals prev0) vnew) in
    let! nd := lift (v_calculate_norm delta) in
    let! nv := lift (v_calculate_norm vals) in
    modify (fun s => mkEig (eg_a s) (eg_vectors s) vals (eg_prev s)) ;;!
    if (nd / nv <? EPSILON)%F then sret false
    else
      let! (vals', prev') := lift (
        exec (for_ (S := V * V) (range 0 m) (fun k =>
          zoom fst (fun v s => (v, snd s)) (v_set k f0) ;;!
          let! x := lift (m_get a k k) in
          zoom snd (fun v s => (fst s, v)) (v_set k x))) (vals, prev0)) in
      modify (fun s => mkEig (eg_a s) (eg_vectors s) vals' prev') ;;!
      sret true.

  Definition eigen (ck : bool) (mat : M) (niter : nat) (shifted : bool)
    : res LinalgError (V * M) :=
    let? _ := m_guard_square mat in
    let? m := m_get_rows mat in
    let? a := exec (m_init m m ;;! m_copy_from mat) mnew in
    let? eigenvectors := exec (m_init m m ;;! m_fill_identity) mnew in
    let? eigenvalues := exec (v_init m) vnew in
    let? previous := exec (v_init m) vnew in
    let? s := exec (for_break (range 0 niter) (fun _ => eig_step ck m shifted))
                (mkEig a eigenvectors eigenvalues previous) in
    Ok (eg_values s, eg_vectors s).
End F32.
