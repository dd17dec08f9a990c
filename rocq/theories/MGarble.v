(** Model of src/garble.rs. *)
From Coq Require Import List NArith Bool Arith.
From Verif Require Import Base MUtil MWires MCircuit.
Import ListNotations.
Open Scope N_scope.

Definition deltas := list (N * wire).
Definition dlookup (k : N) (m : deltas) : outcome wire := unwrap PKey (alookup N.eqb k m).

(** garble.rs:18-21 [EncodingKey], :24 [BinaryEncodingKey], :99-102 [DecodingKey]. *)
Record encoding_key := mkEK { ek_wires : list wire; ek_delta : deltas }.
Record binary_key := mkBK { bk_zeros : list wire; bk_ones : list wire }.
Record decoding_key := mkDK { dk_hashes : list (list bytes); dk_offset : nat }.

(** garble.rs:288-293 [GarbledCircuit]. *)
Record garbled := mkGC {
  gc_circuit : circuit;
  gc_f : list (nat * list wire);
  gc_half : list (nat * (wire * wire)) }.

(** garble.rs:26-43 [EncodingKey::encode] and 354-369 [encode] (same body). *)
Definition encode (p : profile) (e : encoding_key) (x : list N) : outcome (list wire) :=
  let* _ := debug_assert p (Nat.eqb (length (ek_wires e)) (length x)) in
  zipM (fun w x =>
    let* d := dlookup (wire_domain w) (ek_delta e) in
    let* dx := wmul p d x in
    wadd p w dx) (ek_wires e) x.

(** garble.rs:45-54 [From<EncodingKey> for BinaryEncodingKey]. *)
Definition binary_of_ek (p : profile) (k : encoding_key) : outcome binary_key :=
  let* _ := assert_ (forallb (fun w => wire_domain w =? 2) (ek_wires k)) in
  let* d := dlookup 2 (ek_delta k) in
  let* ones := mapM (fun w => wadd p w d) (ek_wires k) in
  Ok (mkBK (ek_wires k) ones).

(** garble.rs:56-64 [From<BinaryEncodingKey> for EncodingKey]. *)
Definition ek_of_binary (p : profile) (k : binary_key) : outcome encoding_key :=
  let* z := idx (bk_zeros k) 0 in
  let* o := idx (bk_ones k) 0 in
  let* d := wadd p z o in
  Ok (mkEK (bk_zeros k) [(2, d)]).

(** garble.rs:67-79 [BinaryEncodingKey::encode]. *)
Definition bk_encode (k : binary_key) (bits : list bool) : outcome (list wire) :=
  let* _ := assert_ (Nat.eqb (length bits) (length (bk_zeros k))) in
  mapM (fun ib : nat * bool =>
    let (i, b) := ib in if b then idx (bk_ones k) i else idx (bk_zeros k) i)
    (combine (seq 0 (length bits)) bits).

(** garble.rs:81-87 [BinaryEncodingKey::zipped]. *)
Definition zipped (k : binary_key) : outcome (list (wire * wire)) :=
  mapM (fun i => let* z := idx (bk_zeros k) i in let* o := idx (bk_ones k) i in Ok (z, o))
    (seq 0 (length (bk_zeros k))).

(** garble.rs:89-95 [BinaryEncodingKey::unzipped]. *)
Definition unzipped (z : list (wire * wire)) : binary_key := mkBK (map fst z) (map snd z).

Section Garble.
Variable sha256 : bytes -> bytes.
Variable p : profile.

(** garble.rs:122-130 and 377-386: the search for k in 0..z.domain(). Indexing [hashes[k]] may panic.
    [None] means no k matched. *)
Fixpoint decode_search (output : nat) (z : wire) (hashes : list bytes) (ks : list nat)
  : outcome (option N) :=
  match ks with
  | [] => Ok None
  | k :: ks' =>
      let* h := idx hashes k in
      if bytes_eqb (hash sha256 output (N.of_nat k) z) h then Ok (Some (N.of_nat k))
      else decode_search output z hashes ks'
  end.

(** garble.rs:116-138 [DecodingKey::decode]: pushes one value per wire. *)
Fixpoint dk_decode_loop (d : decoding_key) (z : list wire) (i : nat) : outcome (list N) :=
  match z with
  | [] => Ok []
  | w :: z' =>
      let* hashes := idx (dk_hashes d) i in
      let* r := decode_search (dk_offset d + i) w hashes (seq 0 (N.to_nat (wire_domain w))) in
      match r with
      | None => Err EDecode
      | Some k => let* ys := dk_decode_loop d z' (S i) in Ok (k :: ys)
      end
  end.
Definition dk_decode (d : decoding_key) (z : list wire) : outcome (list N) := dk_decode_loop d z 0.

(** garble.rs:371-394 [decode]: a result vector of [d.hashes.len()] zeros is filled in. *)
Fixpoint decode_loop (d : decoding_key) (z : list wire) (i : nat) (y : list N) : outcome (list N) :=
  match z with
  | [] => Ok y
  | w :: z' =>
      let* hashes := idx (dk_hashes d) i in
      let* r := decode_search (dk_offset d + i) w hashes (seq 0 (N.to_nat (wire_domain w))) in
      match r with
      | None => Err EDecode
      | Some k => let* y' := set_idx y i k in decode_loop d z' (S i) y'
      end
  end.
Definition decode (d : decoding_key) (z : list wire) : outcome (list N) :=
  decode_loop d z 0 (repeat 0 (length (dk_hashes d))).

(** Randomness of [garble]: [rd m] is the sample drawn by [Wire::delta(m)] (called at most once per
    domain, because of [or_insert_with]); [ri i] the sample drawn by [Wire::new] for input i. *)
Variable rd : N -> bytes.
Variable ri : nat -> bytes.

(** garble.rs:151-153: [delta.entry(m).or_insert_with(|| Wire::delta(m))]. *)
Definition ensure_delta (dl : deltas) (m : N) : outcome deltas :=
  match alookup N.eqb m dl with
  | Some _ => Ok dl
  | None => let* w := wire_delta m (rd m) in Ok (ainsert N.eqb m w dl)
  end.

(** garble.rs:149-170: the offsets of all domains used by the gates. *)
Definition garble_deltas (gs : list gate) : outcome deltas :=
  foldM (fun dl g =>
    let* dl := ensure_delta dl (g_domain g) in
    match g_kind g with
    | GProj (PMap t) => ensure_delta dl t
    | GProj (PLess _) => ensure_delta dl 2
    | _ => Ok dl
    end) gs [].

(** garble.rs:172-176. *)
Definition garble_inputs (doms : list N) : outcome (list wire) :=
  mapM (fun im : nat * N => wire_new (snd im) (ri (fst im))) (combine (seq 0 (length doms)) doms).

(** [Wire::from_array(hash!(w, j.to_be_bytes()), Domain::Binary)], garble.rs:236 etc. *)
Definition hash_half (w : wire) (j : nat) : outcome wire :=
  from_array p (sha256 (wval w ++ usize_be j)) Binary.

(** garble.rs:197-225: a projection gate; returns the output label and the table. *)
Definition garble_proj (dl : deltas) (ws : list wire) (g : gate) (k : projkind)
  : outcome (wire * list wire) :=
  let range := proj_domain k in
  let* ii := idx (g_inputs g) 0 in
  let* wi := idx ws ii in
  let c := color wi in
  let* dm := dlookup (g_domain g) dl in
  let* dn := dlookup range dl in
  let* dmc := wmul p dm c in
  let* wi0 := wsub p wi dmc in
  let* hw := hash_wire sha256 p (g_output g) wi0 dn in
  let* y := usub p 16 (g_domain g) c in
  let* py := project k y in
  let* dny := wmul p dn py in
  let* w := wadd p hw dny in
  let* w := wneg p w in
  let* tbl := foldM (fun tbl xn =>
      let x := N.of_nat xn in
      let* dmx := wmul p dm x in
      let* wx := wadd p wi dmx in
      let* hx := hash_wire sha256 p (g_output g) wx w in
      let* hw := wadd p hx w in
      let* px := project k x in
      let* dnx := wmul p dn px in
      let* ct := wadd p hw dnx in
      let* pos := uadd p 16 x c in
      let* pos := urem pos (g_domain g) in
      set_idx tbl (N.to_nat pos) ct)
    (seq 0 (N.to_nat (g_domain g))) (repeat wire_empty (N.to_nat (g_domain g))) in
  Ok (w, tbl).

(** garble.rs:226-253: an AND gate by two half gates; [j0], [j1] already incremented. *)
Definition garble_and (dl : deltas) (ws : list wire) (g : gate) (j0 j1 : nat)
  : outcome (wire * (wire * wire)) :=
  let* delta := dlookup 2 dl in
  let* ia := idx (g_inputs g) 0 in
  let* wa := idx ws ia in
  let* ib := idx (g_inputs g) 1 in
  let* wb := idx ws ib in
  let pa := negb (color wa =? 0) in
  let pb := negb (color wb =? 0) in
  let* ha0 := hash_half wa j0 in
  let* wad := wadd p wa delta in
  let* ha1 := hash_half wad j0 in
  let* tg := wadd p ha0 ha1 in
  let* tg := (if pb then wadd p tg delta else Ok tg) in
  let* wg := hash_half wa j0 in
  let* wg := (if pa then wadd p wg tg else Ok wg) in
  let* hb0 := hash_half wb j1 in
  let* wbd := wadd p wb delta in
  let* hb1 := hash_half wbd j1 in
  let* te := wadd p hb0 hb1 in
  let* te := wadd p te wa in
  let* we := hash_half wb j1 in
  let* we := (if pb then let* s := wadd p te wa in wadd p we s else Ok we) in
  let* w := wadd p wg we in
  Ok (w, (tg, te)).

(** State of the gate loop of [garble]. *)
Record gstate := mkGS {
  gs_wires : list wire;
  gs_f : list (nat * list wire);
  gs_half : list (nat * (wire * wire));
  gs_d : list (list bytes);
  gs_j0 : nat; gs_j1 : nat }.

(** garble.rs:257-271: decoding information of one output wire. *)
Definition garble_dec (dl : deltas) (ws : list wire) (g : gate) : outcome (list bytes) :=
  let od := output_domain g in
  mapM (fun xn =>
    let x := N.of_nat xn in
    let* w := idx ws (g_output g) in
    let* d := dlookup od dl in
    let* dx := wmul p d x in
    let* wx := wadd p w dx in
    Ok (hash sha256 (g_output g) x wx)) (seq 0 (N.to_nat od)).

(** garble.rs:192-255: the label of one gate, pushed to the wires, with its table. *)
Definition garble_label (dl : deltas) (s : gstate) (g : gate) : outcome gstate :=
  match g_kind g with
  | GAdd =>
      let* ins := mapM (idx (gs_wires s)) (g_inputs g) in
      let* w := wsum p ins in
      Ok (mkGS (gs_wires s ++ [w]) (gs_f s) (gs_half s) (gs_d s) (gs_j0 s) (gs_j1 s))
  | GMul c =>
      let* ii := idx (g_inputs g) 0 in
      let* wi := idx (gs_wires s) ii in
      let* w := wmul p wi c in
      Ok (mkGS (gs_wires s ++ [w]) (gs_f s) (gs_half s) (gs_d s) (gs_j0 s) (gs_j1 s))
  | GProj k =>
      let* (w, tbl) := garble_proj dl (gs_wires s) g k in
      Ok (mkGS (gs_wires s ++ [w]) (ainsert Nat.eqb (g_output g) tbl (gs_f s))
            (gs_half s) (gs_d s) (gs_j0 s) (gs_j1 s))
  | GAnd =>
      let* (w, t) := garble_and dl (gs_wires s) g (S (gs_j0 s)) (S (gs_j1 s)) in
      Ok (mkGS (gs_wires s ++ [w]) (gs_f s) (ainsert Nat.eqb (g_output g) t (gs_half s))
            (gs_d s) (S (gs_j0 s)) (S (gs_j1 s)))
  end.

(** garble.rs:191-272: one iteration of the gate loop. *)
Definition garble_gate (dl : deltas) (start : nat) (s : gstate) (g : gate) : outcome gstate :=
  let* s := garble_label dl s g in
  if Nat.leb start (g_output g) then
    let* values := garble_dec dl (gs_wires s) g in
    Ok (mkGS (gs_wires s) (gs_f s) (gs_half s) (gs_d s ++ [values]) (gs_j0 s) (gs_j1 s))
  else Ok s.

(** garble.rs:147-272: everything [garble] computes: the encoding key, the offsets, the number of the first
    output wire and the final state of the gate loop (including the garbler's secret zero labels).
    The slice [wires[..num_inputs]] panics if too short, the subtraction [num_wires - num_outputs] on usize
    overflows if negative (release: wraps to a huge number, so that no decoding information is produced;
    modelled as a panic in both profiles). *)
Definition garble_run (c : circuit) : outcome (encoding_key * nat * gstate) :=
  let* dl := garble_deltas (gates c) in
  let* ws := garble_inputs (input_domains c) in
  let* ins := (if Nat.leb (num_inputs c) (length ws) then Ok (firstn (num_inputs c) ws) else Panic PSlice) in
  let* start := (if Nat.leb (num_outputs c) (num_wires c) then Ok (num_wires c - num_outputs c)%nat
                 else Panic POverflow) in
  let* s := foldM (garble_gate dl start) (gates c) (mkGS ws [] [] [] 0 0) in
  Ok (mkEK ins dl, start, s).

(** garble.rs:274-285: the three results of [garble]. *)
Definition garble (c : circuit) : outcome (garbled * encoding_key * decoding_key) :=
  let* (ek, start, s) := garble_run c in
  Ok (mkGC c (gs_f s) (gs_half s), ek, mkDK (gs_d s) start).

(** [wires[i].assume_init_ref()]: panic out of bounds, UB on an uninitialised slot. *)
Definition read_init (ws : list (option wire)) (i : nat) : outcome wire :=
  let* o := idx ws i in match o with Some w => Ok w | None => UB end.

(** garble.rs:311-348: one gate of [evaluate]; state: wires, j0, j1. *)
Definition eval_garbled_gate (gc : garbled) (s : list (option wire) * nat * nat) (g : gate)
  : outcome (list (option wire) * nat * nat) :=
  let '(ws, j0, j1) := s in
  let* (w, j0, j1) :=
    match g_kind g with
    | GAdd =>
        let* ins := mapM (read_init ws) (g_inputs g) in
        let* w := wsum p ins in Ok (w, j0, j1)
    | GMul c =>
        let* ii := idx (g_inputs g) 0 in
        let* wi := read_init ws ii in
        let* w := wmul p wi c in Ok (w, j0, j1)
    | GProj _ =>
        let* ii := idx (g_inputs g) 0 in
        let* wi := read_init ws ii in
        let* tbl := unwrap PKey (alookup Nat.eqb (g_output g) (gc_f gc)) in
        let* cipher := idx tbl (N.to_nat (color wi)) in
        let* hw := hash_wire sha256 p (g_output g) wi cipher in
        let* w := wsub p cipher hw in Ok (w, j0, j1)
    | GAnd =>
        let* a := idx (g_inputs g) 0 in
        let* b := idx (g_inputs g) 1 in
        let* wa := read_init ws a in
        let* wb := read_init ws b in
        let sa := negb (color wa =? 0) in
        let sb := negb (color wb =? 0) in
        let j0 := S j0 in
        let j1 := S j1 in
        let* (tg, te) := unwrap PKey (alookup Nat.eqb (g_output g) (gc_half gc)) in
        let* wg := hash_half wa j0 in
        let* wg := (if sa then wadd p wg tg else Ok wg) in
        let* we := hash_half wb j1 in
        let* we := (if sb then let* s := wadd p te wa in wadd p we s else Ok we) in
        let* w := wadd p wg we in Ok (w, j0, j1)
    end in
  let* ws := set_idx ws (g_output g) (Some w) in
  Ok (ws, j0, j1).

(** garble.rs:295-352 [evaluate]. The final [transmute] and slice copy reads the output slots only;
    an uninitialised output slot is UB. Reserving the wires is taken to succeed; see MReserve. *)
Definition evaluate (gc : garbled) (x : list wire) : outcome (list wire) :=
  let c := gc_circuit gc in
  let* _ := debug_assert p (Nat.eqb (length x) (num_inputs c)) in
  let* ws := foldM (fun ws i => let* xi := idx x i in set_idx ws i (Some xi))
               (seq 0 (num_inputs c)) (repeat None (num_wires c)) in
  let* (ws, _, _) := foldM (eval_garbled_gate gc) (gates c) (ws, 0%nat, 0%nat) in
  if Nat.leb (num_outputs c) (num_wires c)
  then mapM (fun o => match o with Some w => Ok w | None => UB end)
         (skipn (num_wires c - num_outputs c) ws)
  else Panic POverflow.
End Garble.
