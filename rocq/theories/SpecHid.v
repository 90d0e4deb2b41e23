(** Vocabulary of C75: what a host makes of a report, going by its report descriptor
    (HID 1.11, 5.3-5.10, 6.2.2, 8).  Only short items; no push and pop, no usages with a
    page of their own: the descriptors of the firmware have none. *)
From Verif Require Import Base Output SimpleKeys SpecOutput.
Import List.
Local Open Scope N_scope.

(** *** Items *)
Record item := mkItem { it_type : N (* 0 main, 1 global, 2 local *); it_tag : N; it_size : N; it_data : N }.
Fixpoint little_endian (l : list u8) : N := match l with [] => 0 | b :: t => b + 256 * little_endian t end.
Definition item_size (prefix : u8) : N := match prefix mod 4 with 3 => 4 | n => n end.
Fixpoint items (fuel : nat) (l : list u8) : list item :=
  match fuel, l with
  | S f, p :: t =>
      let n := item_size p in
      mkItem (p / 4 mod 4) (p / 16) n (little_endian (firstn (N.to_nat n) t)) :: items f (skipn (N.to_nat n) t)
  | _, _ => []
  end.
(** A number of [bits] bits in two's complement. *)
Definition signed (bits : N) (v : N) : Z :=
  if (0 <? bits) && (2 ^ (bits - 1) <=? v) then (Z.of_N v - Z.of_N (2 ^ bits))%Z else Z.of_N v.

(** *** Fields *)
Record field := mkField {
  f_id : N; f_input : bool;
  f_size : N; f_count : N;             (* bits of an element, elements *)
  f_constant : bool; f_variable : bool;
  f_min : Z; f_max : Z;                (* logical minimum and maximum *)
  f_page : N; f_usages : list N; f_range : option (N * N)
}.
Record parser := mkParser {
  g_page : N; g_min : Z; g_max : Z; g_size : N; g_count : N; g_id : N;   (* global items *)
  l_usages : list N; l_min : N; l_max : option N;                       (* local items *)
  p_fields : list field
}.
Definition parser_new : parser := mkParser 0 0 0 0 0 0 [] 0 None [].
Definition end_local (p : parser) : parser :=
  mkParser (g_page p) (g_min p) (g_max p) (g_size p) (g_count p) (g_id p) [] 0 None (p_fields p).
Definition add_field (input : bool) (flags : N) (p : parser) : parser :=
  mkParser (g_page p) (g_min p) (g_max p) (g_size p) (g_count p) (g_id p) (l_usages p) (l_min p) (l_max p)
    (p_fields p ++ [mkField (g_id p) input (g_size p) (g_count p) (N.testbit flags 0) (N.testbit flags 1) (g_min p) (g_max p)
                      (g_page p) (l_usages p) (match l_max p with Some m => Some (l_min p, m) | None => None end)]).
Definition parse_item (p : parser) (i : item) : parser :=
  match it_type i, it_tag i with
  (* main: input, output, and collections *)
  | 0, 8 => end_local (add_field true (it_data i) p)
  | 0, 9 => end_local (add_field false (it_data i) p)
  | 0, _ => end_local p
  (* global: usage page, logical minimum and maximum, report size, id and count *)
  | 1, 0 => mkParser (it_data i) (g_min p) (g_max p) (g_size p) (g_count p) (g_id p) (l_usages p) (l_min p) (l_max p) (p_fields p)
  | 1, 1 => mkParser (g_page p) (signed (8 * it_size i) (it_data i)) (g_max p) (g_size p) (g_count p) (g_id p) (l_usages p) (l_min p) (l_max p) (p_fields p)
  | 1, 2 => mkParser (g_page p) (g_min p) (signed (8 * it_size i) (it_data i)) (g_size p) (g_count p) (g_id p) (l_usages p) (l_min p) (l_max p) (p_fields p)
  | 1, 7 => mkParser (g_page p) (g_min p) (g_max p) (it_data i) (g_count p) (g_id p) (l_usages p) (l_min p) (l_max p) (p_fields p)
  | 1, 8 => mkParser (g_page p) (g_min p) (g_max p) (g_size p) (g_count p) (it_data i) (l_usages p) (l_min p) (l_max p) (p_fields p)
  | 1, 9 => mkParser (g_page p) (g_min p) (g_max p) (g_size p) (it_data i) (g_id p) (l_usages p) (l_min p) (l_max p) (p_fields p)
  (* local: usage, usage minimum and maximum *)
  | 2, 0 => mkParser (g_page p) (g_min p) (g_max p) (g_size p) (g_count p) (g_id p) (l_usages p ++ [it_data i]) (l_min p) (l_max p) (p_fields p)
  | 2, 1 => mkParser (g_page p) (g_min p) (g_max p) (g_size p) (g_count p) (g_id p) (l_usages p) (it_data i) (l_max p) (p_fields p)
  | 2, 2 => mkParser (g_page p) (g_min p) (g_max p) (g_size p) (g_count p) (g_id p) (l_usages p) (l_min p) (Some (it_data i)) (p_fields p)
  | _, _ => p
  end.
(** The fields of the input reports with the given number; 0 if reports have no number. *)
Definition input_fields (desc : list u8) (id : N) : list field :=
  filter (fun f => f_input f && (f_id f =? id)) (p_fields (fold_left parse_item (items (length desc) desc) parser_new)).
Definition report_bits (fs : list field) : N := fold_left (fun n f => n + f_size f * f_count f) fs 0.

(** *** What the host sees *)

(** The usage at place [i] of a field: of its range, or of its list, whose last usage
    also stands for further places. *)
Definition usage_at (f : field) (i : N) : option N :=
  match f_range f with
  | Some (a, b) => if a + i <=? b then Some (a + i) else None
  | None => match nth_error (f_usages f) (N.to_nat i) with
            | Some u => Some u
            | None => match rev (f_usages f) with u :: _ => Some u | [] => None end
            end
  end.
Definition bits_of (report : list u8) : list bool := flat_map (fun b => map (N.testbit b) [0; 1; 2; 3; 4; 5; 6; 7]) report.
Fixpoint value (l : list bool) : N := match l with [] => 0 | b :: t => (if b then 1 else 0) + 2 * value t end.
(** An element: a variable has a value, an element of an array selects a usage.  Values
    outside the logical range are ignored (HID 1.11, 5.10). *)
Definition element (f : field) (i : N) (bits : list bool) : list (N * N * Z) :=
  let raw := value (firstn (N.to_nat (f_size f)) bits) in
  let v := if (f_min f <? 0)%Z then signed (f_size f) raw else Z.of_N raw in
  if f_constant f || (v <? f_min f)%Z || (f_max f <? v)%Z then []
  else match usage_at f (if f_variable f then i else Z.to_N (v - f_min f)) with
       | Some u => [(f_page f, u, if f_variable f then v else 1%Z)]
       | None => []
       end.
Fixpoint elements (f : field) (n : nat) (i : N) (bits : list bool) : list (N * N * Z) :=
  match n with
  | O => []
  | S n => element f i bits ++ elements f n (i + 1) (skipn (N.to_nat (f_size f)) bits)
  end.
Fixpoint see (fs : list field) (bits : list bool) : list (N * N * Z) :=
  match fs with
  | [] => []
  | f :: t => elements f (N.to_nat (f_count f)) 0 bits ++ see t (skipn (N.to_nat (f_size f * f_count f)) bits)
  end.
(** Page, usage and value of all the controls of a report. *)
Definition host_sees (desc : list u8) (id : N) (report : list u8) : list (N * N * Z) := see (input_fields desc id) (bits_of report).
(** A key or button is down; usage 0 is none. *)
Definition down (sees : list (N * N * Z)) (page usage : N) : Prop := usage <> 0 /\ exists v, v <> 0%Z /\ In (page, usage, v) sees.

(** Usage pages (HID Usage Tables). *)
Definition DESKTOP : N := 1.
Definition KEYBOARD : N := 7.
Definition BUTTON : N := 9.
Definition CONSUMER : N := 12.
Definition AXIS_X : N := 48.
Definition AXIS_Y : N := 49.
Definition WHEEL : N := 56.
Definition PAN : N := 568.

(** *** What the host should see *)

(** The key [u] of the keyboard page is one of the first six keys of the outputs, on a
    keyboard that shows key codes up to [bound], or a modifier held. *)
Definition key_shown (bound : N) (kos : list key_output) (u : N) : Prop :=
  (1 <= u <= bound /\ In u (firstn 6 (key_slots kos))) \/ (224 <= u <= 231 /\ modifier_held kos (u - 224)).
(** All codes are bytes. *)
Definition bytes (l : list u8) : Prop := Forall (fun b => b < 256) l.
