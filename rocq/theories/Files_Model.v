(** Model of the readers of files and images:
      /repo/pyclustering/utils/graph.py        (graph.__init__, L46-71; properties, L74-115; read_graph, L118-208)
      /repo/pyclustering/samples/__init__.py   (answer_reader, L14-102)
      /repo/pyclustering/utils/__init__.py     (rgb2gray, L103-129; gray_pattern_borders, L157-196)
    A file is the list of its lines, already split by their first character
    and with the numbers already parsed: [float(val)] and [int(val)] of a text
    that is no number (a ValueError) are not modelled except where said. *)
From Verif Require Import Base.

(** * graph *)

(** graph.py L17-37. *)
Inductive descr : Type := GMatrix | GVector.

(** graph.__init__ (graph.py L46-71): the state of a graph; numbers are
    exact rationals (floats in the code).  The python [None] for
    [space_descr] is the empty list here, L96 treats them alike. *)
Record graph : Type := mkGraph
  { g_data : list (list Q);
    g_descr : descr;
    g_space : list (list Q);
    g_comments : list nat }.     (* the comment lines, in order (L139 concatenates their texts) *)

(** graph.__init__ utils/graph.py L64-71: the loop over the rows when no type is given.
    The [break] of L67 leaves the loop; the inner loop L69-71 has none. *)
Fixpoint guess_rows (size : nat) (rows : list (list Q)) (d : descr) : descr :=
  match rows with
  | [] => d
  | row :: rest =>
      if negb (length row =? size) then GVector
      else guess_rows size rest
             (fold_left (fun d0 e => if negb (Qeq_bool e 0) || negb (Qeq_bool e 1) then GVector else d0) row d)
  end.

(** graph.__init__ utils/graph.py L60-71. *)
Definition graph_init (data : list (list Q)) (type_graph : option descr)
    (space : list (list Q)) (comments : list nat) : graph :=
  mkGraph data
    (match type_graph with
     | Some d => d
     | None => guess_rows (length data) data GMatrix
     end) space comments.

(** graph.space_description, graph.py L91-99. *)
Definition space_description (g : graph) : option (list (list Q)) :=
  match g_space g with [] => None | s => Some s end.

(** * read_graph *)

(** A line of the file of a graph, by its first character (utils/graph.py L138-184).  The
    text of a comment is a number here. *)
Inductive gline : Type :=
| LComment (c : nat)            (* 'c' or 'p', L138 *)
| LSpace (coords : list Q)      (* 'r', L141 *)
| LMatrix (row : list Q)        (* 'm', L148 *)
| LVector (row : list Q)        (* 'v', L155 *)
| LEdge (vertices : list Z)     (* 'e', L162 *)
| LBlank                        (* L180 *)
| LOther.                       (* L182 *)

(** [data_type], utils/graph.py L133. *)
Inductive dtype : Type := DM | DV | DE.
(** with [dtype], utils/graph.py:133 *)
Definition dtype_eqb (a b : dtype) : bool :=
  match a, b with DM, DM => true | DV, DV => true | DE, DE => true | _, _ => false end.

(** [(data_type is not None) and (data_type != t)], utils/graph.py L149, L156, L163. *)
Definition other_type (d : option dtype) (t : dtype) : bool :=
  match d with None => false | Some x => negb (dtype_eqb x t) end.

(** map_data_repr, utils/graph.py L135: an association list in the order of insertion. *)
Fixpoint mget (k : Z) (m : list (Z * list Z)) : option (list Z) :=
  match m with
  | [] => None
  | (k', v) :: m' => if Z.eqb k k' then Some v else mget k m'
  end.

(** utils/graph.py L169-172 (and L174-177): creates the list of the vertex or appends to it. *)
Fixpoint madd (k v : Z) (m : list (Z * list Z)) : list (Z * list Z) :=
  match m with
  | [] => [(k, [v])]
  | (k', vs) :: m' => if Z.eqb k k' then (k', vs ++ [v]) :: m' else (k', vs) :: madd k v m'
  end.

(** The local variables of the loop, utils/graph.py L130-135. *)
Record rstate : Type := mkR
  { r_comments : list nat;
    r_space : list (list Q);
    r_data : list (list Q);
    r_type : option dtype;
    r_map : list (Z * list Z) }.

(** for [read_graph], utils/graph.py:118-208 *)
Definition r0 : rstate := mkR [] [] [] None [].

(** The body of the loop, utils/graph.py L138-184. *)
Definition read_line (s : rstate) (l : gline) : res rstate :=
  match l with
  | LComment c => Ok (mkR (r_comments s ++ [c]) (r_space s) (r_data s) (r_type s) (r_map s))
  | LSpace cs =>
      if negb (length cs =? 2) then Raise NameError
      else Ok (mkR (r_comments s) (r_space s ++ [cs]) (r_data s) (r_type s) (r_map s))
  | LMatrix row =>
      if other_type (r_type s) DM then Raise NameError
      else Ok (mkR (r_comments s) (r_space s) (r_data s ++ [row]) (Some DM) (r_map s))
  | LVector row =>
      if other_type (r_type s) DV then Raise NameError
      else Ok (mkR (r_comments s) (r_space s) (r_data s ++ [row]) (Some DV) (r_map s))
  | LEdge vs =>
      if other_type (r_type s) DE then Raise NameError
      else match vs with
           | a :: b :: _ =>
               Ok (mkR (r_comments s) (r_space s) (r_data s) (Some DE) (madd b a (madd a b (r_map s))))
           | _ => Raise IndexError
           end
  | LBlank => Ok s
  | LOther => Raise NameError
  end.

(** for [read_graph], utils/graph.py:118-208 *)
Fixpoint read_lines (s : rstate) (ls : list gline) : res rstate :=
  match ls with
  | [] => Ok s
  | l :: rest => do s' <- read_line s l; read_lines s' rest
  end.

(** [data[index][index_neighbour - 1] = 1], utils/graph.py L192, with python's negative
    indexes. *)
Definition set_one (row : list Q) (i : Z) : res (list Q) :=
  let n := Z.of_nat (length row) in
  if (0 <=? i)%Z && (i <? n)%Z then Ok (upd row (Z.to_nat i) 1%Q)
  else if (i <? 0)%Z && (- n <=? i)%Z then Ok (upd row (Z.to_nat (i + n)) 1%Q)
  else Raise IndexError.

(** for [edge_rows], utils/graph.py:188-192 *)
Fixpoint set_ones (row : list Q) (ns : list Z) : res (list Q) :=
  match ns with
  | [] => Ok row
  | v :: rest => do row' <- set_one row (v - 1); set_ones row' rest
  end.

(** utils/graph.py L188-192, the rows for the indexes of [is]. *)
Fixpoint edge_rows (m : list (Z * list Z)) (is : list nat) : res (list (list Q)) :=
  match is with
  | [] => Ok []
  | i :: rest =>
      match mget (Z.of_nat i + 1) m with
      | None => Raise KeyError
      | Some ns =>
          do row <- set_ones (repeat 0%Q (length m)) ns;
          do rows <- edge_rows m rest;
          Ok (row :: rows)
      end
  end.

(** read_graph, utils/graph.py L118-208.  The blank test of L180 comes after the tests of the
    first character, which a blank line meets in none. *)
Definition read_graph (ls : list gline) : res graph :=
  do s <- read_lines r0 ls;
  do data <- match r_type s with
             | Some DE => do rows <- edge_rows (r_map s) (seq 0 (length (r_map s))); Ok (r_data s ++ rows)
             | _ => Ok (r_data s)
             end;
  match r_type s with
  | None => Raise NameError
  | Some t =>
      let d := match t with DM => GMatrix | DV => GVector | DE => GMatrix end in
      if match r_space s with [] => false | _ => negb (length data =? length (r_space s)) end
      then Raise NameError
      else Ok (graph_init data (Some d) (r_space s) (r_comments s))
  end.

(** * answer_reader *)

(** A line of the file of answers (samples/__init__.py L67-86). *)
Inductive aline : Type :=
| ANoise            (* first character 'n', L78 *)
| ALabel (z : Z)    (* int(line), L81 *)
| ABad.             (* int(line) raises ValueError: a blank line, say *)

(** The attributes of the reader, samples/__init__.py L26-28: [__clusters] is None before reading. *)
Record reader : Type := mkReader
  { a_clusters : option (list (list nat));
    a_noise : option (list nat) }.

(** samples/__init__.py:18-27 *)
Definition reader_init : reader := mkReader None None.

(** __read_answer_from_line, samples/__init__.py L67-86, on the two lists. *)
Definition answer_line (cs : list (list nat)) (noise : list nat) (i : nat) (l : aline)
  : res (list (list nat) * list nat) :=
  match l with
  | ANoise => Ok (cs, noise ++ [i])
  | ABad => Raise ValueError
  | ALabel z =>
      let n := Z.of_nat (length cs) in
      if (n <=? z)%Z then Ok (cs ++ [[i]], noise)
      else if (0 <=? z)%Z then
             Ok (upd cs (Z.to_nat z) (nth (Z.to_nat z) cs [] ++ [i]), noise)
      else if (- n <=? z)%Z then
             Ok (upd cs (Z.to_nat (z + n)) (nth (Z.to_nat (z + n)) cs [] ++ [i]), noise)
      else Raise IndexError
  end.

(** The loop of __read_answer, samples/__init__.py L97-100: what the lists hold when it ends or
    is left by an exception, and the exception. *)
Fixpoint answer_lines (cs : list (list nat)) (noise : list nat) (i : nat) (ls : list aline)
  : (list (list nat) * list nat) * option exn :=
  match ls with
  | [] => ((cs, noise), None)
  | l :: rest =>
      match answer_line cs noise i l with
      | Raise e => ((cs, noise), Some e)
      | Ok (cs', noise') => answer_lines cs' noise' (S i) rest
      end
  end.

(** __read_answer, samples/__init__.py L89-102: the reader after the call, and the exception. *)
Definition read_answer (file : list aline) (r : reader) : reader * option exn :=
  match a_clusters r with
  | Some _ => (r, None)
  | None =>
      let '((cs, noise), e) := answer_lines [] [] 0 file in
      (mkReader (Some cs) (Some noise), e)
  end.

(** get_clusters, samples/__init__.py L31-39. *)
Definition get_clusters (file : list aline) (r : reader) : reader * res (list (list nat)) :=
  let '(r', e) := read_answer file r in
  (r', match e with
       | Some e => Raise e
       | None => match a_clusters r' with Some cs => Ok cs | None => Raise TypeError end
       end).

(** get_noise, samples/__init__.py L42-50. *)
Definition get_noise (file : list aline) (r : reader) : reader * res (list nat) :=
  let '(r', e) := read_answer file r in
  (r', match e with
       | Some e => Raise e
       | None => match a_noise r' with Some n => Ok n | None => Raise TypeError end
       end).

(** get_cluster_lengths, samples/__init__.py L53-64. *)
Definition get_cluster_lengths (file : list aline) (r : reader) : reader * res (list nat) :=
  let '(r', c) := get_clusters file r in
  (r', do cs <- c; Ok (map (@length nat) cs)).

(** * Images *)

(** A pixel: red, green, blue (floats in the code, exact rationals here). for [luma], utils/__init__.py:5-127 *)
Definition pixel : Type := (Q * Q * Q)%type.

(** The weighted sum of rgb2gray (utils/__init__.py L125-127) and of
    gray_pattern_borders (L176). *)
Definition luma (p : pixel) : Q :=
  let '(r, g, b) := p in
  (r * (2989 # 10000) + g * (5870 # 10000) + b * (1140 # 10000))%Q.

(** rgb2gray, utils/__init__.py L103-129. *)
Definition rgb2gray (image : list pixel) : list Q := map luma image.

(** The loop of gray_pattern_borders, utils/__init__.py L174-194: row, column, and the four
    borders. *)
Fixpoint borders_loop (width : nat) (ps : list pixel) (row col ws we hs he : nat)
  : nat * nat * nat * nat :=
  match ps with
  | [] => (ws, hs, we, he)
  | p :: rest =>
      let dark := Qltb (luma p) 128 in
      let we' := if dark && (we <? col) then col else we in
      let he' := if dark && (he <? row) then row else he in
      let ws' := if dark && (col <? ws) then col else ws in
      let hs' := if dark && (row <? hs) then row else hs in
      if width <=? S col then borders_loop width rest (S row) 0 ws' we' hs' he'
      else borders_loop width rest row (S col) ws' we' hs' he'
  end.

(** gray_pattern_borders, utils/__init__.py L157-196: (width_start, height_start, width_end,
    height_end). *)
Definition gray_pattern_borders (width height : nat) (ps : list pixel) : nat * nat * nat * nat :=
  let '(ws, hs, we, he) := borders_loop width ps 0 0 width 0 height 0 in
  (ws, hs, we + 1, he + 1).
