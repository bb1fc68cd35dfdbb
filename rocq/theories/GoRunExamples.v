(** The model of Go (GoAst), which C92, C93, C94 and C101 run generated programs with, on programs written by hand: the text is
    read by GoParse and run; what comes out is what Go prints (nil assigned to a slice or a map, which generated programs do
    not do, is not in the model: Stuck).  Errors that Go's compiler finds are [Stuck] where they are reached. *)
From Coq Require Import String Ascii.
From Verif Require Import Base Spec GenTables GenModel GenTrace TraceSpec NameModel EmitModel GoAst TplModel GoLex GoParse.
Local Open Scope list_scope.
Local Open Scope string_scope.
Definition source : string := "package p
import (
)
type E uint32
type M map[uint32]uint32
type T struct {
	n uint32
	p *T
	l []uint32
	m M
}
func id(x uint32) uint32 { return x }
func set(x uint32) uint32 {
	x = 5
	return x
}
func put(t *T) { t.n = 5 }
func NewT(n uint32) *T { return &T{n: n} }
func (x *T) Get() uint32 { return x.n }
func (x *T) IsNil() bool { return x == nil }

// pointers, slices and maps are references; numbers are not
func pointers() uint32 { a := NewT(1); b := a; b.n = 7; return a.Get() }
func structs() uint32 { a := NewT(1); b := &T{n: a.n}; b.n = 7; return a.n }
func arguments() uint32 { a := id(1); set(a); return a }
func pointer_arguments() uint32 { a := NewT(1); put(a); return a.n }
func slices() uint32 { x := make([]uint32, 3); y := x; y[1] = 5; return x[1] }
func slice_in_struct() uint32 { t := &T{l: make([]uint32, 3)}; t.l[2] = 4; x := t.l; return x[2] }
func maps() uint32 {
	x := &T{m: make(map[uint32]uint32, 0)}
	k := x.m
	k[1] = 2
	k[3] = 4
	k[1] = 6
	return uint32(len(x.m))
}
func map_entries() uint32 {
	m := make(map[uint32]uint32, 0)
	m[3] = 4; m[1] = 2; m[1] = 6
	for k, v := range m {
		if k == id(1) { return v }
	}
	return 0
}
func chain() uint32 { t := &T{p: &T{p: NewT(3)}}; t.p.p.n = id(t.p.p.n); return t.p.p.Get() }
// nil
func set_nil() bool { t := &T{p: NewT(1)}; t.p = nil; return t.p == nil }
func not_nil() bool { t := &T{p: NewT(1)}; t.n = 2; return t.p != nil }
func zero() uint32 { t := &T{}; if t.p == nil { return uint32(len(t.l)) }; return 7 }
func nil_lengths() uint32 { var m M; t := &T{m: m}; for k, v := range m { id(k); return v }; return uint32(len(t.m)) }
func nil_receiver() bool { var t *T; return t.IsNil() }
func nil_pointer() uint32 { var t *T; return t.n }
func nil_pointer_in_method() uint32 { var t *T; return t.Get() }
func nil_pointer_assigned() { t := &T{}; t.p.n = 1 }
func nil_map_assigned() { var m M; m[1] = 2 }
func nil_slice() uint32 { t := &T{}; return t.l[0] }
func out_of_range() uint32 { x := make([]uint32, 3); return x[3] }
func out_of_range_assigned() { x := make([]uint32, 3); x[3] = 1 }
// scopes
func inner() uint32 { x := id(1); if x == x { x := id(2); id(x) }; return x }
func outer() uint32 { x := id(1); if x == x { x = id(2) } else { x = id(3) }; return x }
func gone() uint32 { if 1 == 1 { y := id(2); id(y) }; return y }
// loops
func count() uint32 { x := make([]uint32, 4); for i := uint32(0); i < uint32(len(x)); i++ { x[i] = i }; return x[3] }
func leaves() uint32 { for i := uint32(0); i < 5; i++ { if i == id(2) { return i } }; return 9 }
func last() uint32 { x := make([]uint32, 3); x[2] = 8; r := id(0); for _, v := range x { r = v }; return r }
func copies() uint32 { x := make([]uint32, 3); for _, v := range x { v = 5; id(v) }; return x[2] }
func forever(t *T) *T { return forever(t) }
// types
func enum() E { return E(3) }
func not_an_enum() { t := &T{}; t.p = E(3) }
func wrong_type() { var x uint8; x = id(1) }
func unknown() { f(1) }
func no_field() uint32 { t := &T{}; return t.z }
func no_bool() { if id(1) { id(2) } }
func hidden() uint32 { T := id(1); t := &T{n: T}; return t.n }
".
Definition program : list decl := match read_program true 100 (text source) with Some P => P | None => [] end.
Inductive result := Number (z : Z) | Truth (b : bool) | Nothing | Panic | Overflow | Rejected | Other.
Definition call (f : string) (args : list gov) : result :=
  match call_go program unlimited (fun _ _ _ => Crash) 20 None (text f) args (mkst [] [] [] [] []) with
  | Fine ([GoBase (VU32 z)], _) => Number z
  | Fine ([GoBase (VBool b)], _) => Truth b
  | Fine ([], _) => Nothing
  | Fine _ => Other
  | Panics => Panic
  | Deep => Overflow
  | Stuck => Rejected
  end.
Example go_references : map (fun f => call f []) ["pointers"; "structs"; "arguments"; "pointer_arguments"; "slices"; "slice_in_struct"; "maps"; "map_entries"; "chain"]
  = [Number 7; Number 1; Number 1; Number 5; Number 5; Number 4; Number 2; Number 6; Number 3].
Proof. vm_compute. reflexivity. Qed.
Example go_nil : map (fun f => call f []) ["set_nil"; "not_nil"; "zero"; "nil_lengths"; "nil_receiver"; "nil_pointer"; "nil_pointer_in_method"; "nil_pointer_assigned"; "nil_map_assigned"; "nil_slice"; "out_of_range"; "out_of_range_assigned"]
  = [Truth true; Truth true; Number 0; Number 0; Truth true; Panic; Panic; Panic; Panic; Panic; Panic; Panic].
Proof. vm_compute. reflexivity. Qed.
Example go_scopes_and_loops : map (fun f => call f []) ["inner"; "outer"; "gone"; "count"; "leaves"; "last"; "copies"]
  = [Number 1; Number 2; Rejected; Number 3; Number 2; Number 8; Number 0] /\ call "forever" [GoPtr (text "T") None] = Overflow /\ call "put" [GoPtr (text "T") None] = Panic.
Proof. vm_compute. repeat split. Qed.
Example go_wrong_types : map (fun f => call f []) ["enum"; "not_an_enum"; "wrong_type"; "unknown"; "no_field"; "no_bool"; "hidden"; "no_such_function"]
  = [Number 3; Rejected; Rejected; Rejected; Rejected; Rejected; Rejected; Rejected].
Proof. vm_compute. reflexivity. Qed.
