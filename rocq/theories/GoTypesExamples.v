(** The type checker of C94 and C101 (GoTypes) on functions written by hand, read by GoParse: what the Go compiler accepts, and
    what it rejects with the error in the comment. *)
From Coq Require Import String Ascii.
From Verif Require Import Base Spec GenTables GenModel NameModel EmitModel GoAst TplModel GoLex GoParse GoTypes.
Local Open Scope list_scope.
Local Open Scope string_scope.
Definition package : string := "package p
import (
)
var (
	ErrNil = errors.New(""cannot decode into a nil root struct"")
)
type E uint32
const (
	A = E(0)
)
type M map[string]*T
type T struct {
	n uint32
	s string
	b []byte
	e E
	p *T
	l []*T
	m M
	error error
}
func NewT() *T { return &T{} }
func (x *T) Get() uint32 { return x.n }
func (x *T) Set(n uint32, s string) { x.n = n; x.s = s }
func number(n uint32) uint32 { return n }
".
(** does the package with the function in it pass *)
Definition passes (v2 : bool) (f : string) : option bool := option_map (type_checks v2) (read_program v2 100 (text (package ++ f))).
Definition all_pass (v2 : bool) (fs : list string) : bool := forallb (fun f => match passes v2 f with Some true => true | _ => false end) fs.
(** each can be parsed, and does not pass *)
Definition none_passes (v2 : bool) (fs : list string) : bool := forallb (fun f => match passes v2 f with Some false => true | _ => false end) fs.

Example accepted : all_pass true [
  "func f() uint32 { return 3 }"; "func f(x *T) { x.Set(x.Get(), x.s) }"; "func f(x *T) { x.n = number(x.n); x.p = nil; x.l = nil; x.m = nil; x.e = E(x.n); x.error = nil }";
  "func f(x *T) { x.l[0] = NewT(); x.m[x.s] = x.l[x.n]; x.l = make([]*T, x.n); x.m = make(map[string]*T, 3) }";
  "func f(x *T) bool { if x == nil { return x != nil }; return x.e == x.e }"; "func f(x *T) { for i, v := range x.l { x.l[i] = v.p } }"; "func f(x *T) { for _, v := range x.m { v.Set(1, v.s) } }";
  "func f(x *T) { for i := uint32(0); i < uint32(len(x.l)); i++ { x.l[i].n = i } }"; "func f(x *T) { var y *T; y = x; y.Set(uint32(x.e), x.s) }"; "func f(x *T) { if x != nil { x := x.n; x = number(x) } else { x = NewT() } }";
  "func f(b *polyglot.Buffer, x *T) { polyglot.Encoder(b).Slice(uint32(len(x.l)), polyglot.AnyKind).Uint32(x.n).String(x.s).Bytes(x.b) }";
  "func f(d *polyglot.BufferDecoder, x *T) { x.n, x.error = d.Uint32(); x.b, x.error = d.Bytes(x.b) }";
  "func f(x *T) *T { return &T{n: 1, s: x.s, l: x.l, p: &T{}} }"; "func f() *T { return nil }"]%string = true.
Proof. vm_compute. reflexivity. Qed.

Example rejected : none_passes true [
  (* undefined: y *)                                   "func f() uint32 { return y }"; "func f(x *T) { x.z = 1 }"; "func f(x *T) { x.Put(1) }"; "func f() { var x *U; x.n = 1 }"; "func f(x *T) { if x == nil { y := 1; x.n = y }; x.n = y }";
  (* cannot use ... as ... value *)                    "func f(x *T) { x.n = x.s }"; "func f(x *T) { x.e = x.n }"; "func f(x *T) { x.s = nil }"; "func f(x *T) { x.l = x.p }"; "func f(x *T) { x.p = x.n }"; "func f(x *T) uint32 { return x.s }"; "func f(x *T) *T { return &T{n: x.s} }";
                                                       "func f(x *T) { x.m[x.n] = x }"; "func f(x *T) { x.l[x.s] = x }"; "func f(x *T) { x.l[0] = x.n }"; "func f(x *T) { x.n = number(x.s) }"; "func f(x *T) { x.Set(x.s, x.n) }"; "func f(x *T) { x.l = make([]T, 1) }";
  (* not enough, too many arguments or values *)       "func f(x *T) { x.n = number() }"; "func f(x *T) { x.Set(1) }"; "func f(x *T) { x.n, x.n = number(1) }"; "func f(d *polyglot.BufferDecoder, x *T) { x.n = d.Uint32() }"; "func f() uint32 { return 1, 2 }"; "func f() { return 1 }"; "func f() uint32 { return }";
  (* declared and not used: y *)                       "func f() { y := number(1) }"; "func f() { y := number(1); y = 2 }"; "func f(x *T) { for i, v := range x.l { x = v } }"; "func f() { var y *T }";
  (* y redeclared in this block *)                     "func f() uint32 { y := number(1); z := number(y); y := number(z); return y }"; "func f(x *T) uint32 { z := x.n; x := z; return x }";
  (* missing return *)                                 "func f(x *T) uint32 { if x == nil { return 1 } }"; "func f() uint32 { }";
  (* non-boolean condition; mismatched types *)        "func f(x *T) { if x.n { x.n = 1 } }"; "func f(x *T) bool { return x.n == x.s }"; "func f(x *T) bool { return x.n == nil }"; "func f(x *T) bool { return x.e == x.n }"; "func f(x *T) bool { return !x.n }";
  (* cannot range over; not an array; not a function *) "func f(x *T) { for _, v := range x.p { x = v } }"; "func f(x *T) *T { return x.p[0] }"; "func f(x *T) { x.n = ErrNil(1) }";
  (* is not used *)                                    "func f(x *T) { x.n }"; "func f(x *T) { x == nil }";
  (* cannot assign; invalid operation; wrong library *) "func f(x *T) { x.Get() = 1 }"; "func f(b *polyglot.Buffer, x *T) { polyglot.Encoder(b).Uint32(x.s) }"; "func f(d *polyglot.BufferDecoder, x *T) { x.s, x.error = d.Uint32() }"; "func f(d *polyglot.BufferDecoder, x *T) { x.n, x.error = d.Uint33() }";
                                                       "func f(b *polyglot.Buffer, x *T) { polyglot.Encoder(x).Uint32(x.n) }"; "func f(b *polyglot.Buffer) { polyglot.Encoder(b).Slice(1, polyglot.NoKind) }"; "func f() { T := number(1); return &T{} }";
  (* types of declarations *)                          "type U struct { x *V }"; "type U map[[]byte]string"; "func f(x *V) { }"; "func f(x *T) V { return x.n }"]%string = true.
Proof. vm_compute. reflexivity. Qed.
