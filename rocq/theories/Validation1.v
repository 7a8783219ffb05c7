(* The model against the tests of the repository: for every file /repo/Test/c--/t*.cmm (after
   the C preprocessor, which the driver runs first), the text that the model prints with -O is,
   byte for byte, the expected output committed in /repo/Test/c--: IM.Opt (vm2ic.c), VM.Opt
   (vm2vm.c) and TaC.Opt (vm2tac.c).  In the TaC files the mask #0x00ff of vmChr is written
   #255 here (see AsmText.v).  These are tests of the model, not theorems. *)
From Coq Require Import ZArith String List.
From Verif Require Import Lexer AsmText.
Open Scope Z_scope.
Local Notation "'text' s" := (Some (codes s%string)) (at level 10, s at level 9, only parsing).

Definition t010_src : list Z := codes "# 0 ""/repo/Test/c--/t010.cmm""
# 0 ""<built-in>""
# 0 ""<command-line>""
# 1 ""/repo/Test/c--/t010.cmm""





int a=1;
int b=2;
int c=3;
int[] x = array(5);
int[][] y = array(5,5);

int[] f1() {
  return y[1];
}

void f2() {
  b=y[1][a*b+c*f1()[2]];
}
"%string.
Example t010_ic : compileText true false vm2ic t010_src = text "vmNam(0)
vmDwCns(1)
vmNam(1)
vmDwCns(2)
vmNam(2)
vmDwCns(3)
vmLab(1)
vmWs(5)
vmNam(3)
vmDwLab(1)
vmLab(2)
vmWs(5)
vmLab(3)
vmWs(5)
vmLab(4)
vmWs(5)
vmLab(5)
vmWs(5)
vmLab(6)
vmWs(5)
vmLab(7)
vmDwLab(2)
vmDwLab(3)
vmDwLab(4)
vmDwLab(5)
vmDwLab(6)
vmNam(4)
vmDwLab(7)
vmNam(5)
vmEntry(0)
vmLdGlb(4)
vmLdCns(1)
vmLdWrd()
vmMReg()
vmRet()
vmNam(6)
vmEntry(0)
vmLdGlb(4)
vmLdCns(1)
vmLdWrd()
vmCallF(0, 5)
vmLdCns(2)
vmLdWrd()
vmLdGlb(2)
vmMul()
vmLdGlb(0)
vmLdGlb(1)
vmMul()
vmAdd()
vmLdWrd()
vmStGlb(1)
vmPop()
vmRet()
".
Proof. vm_compute. reflexivity. Qed.
Example t010_vm : compileText true false vm2vm t010_src = text ".a
	DW	1
.b
	DW	2
.c
	DW	3
.L1
	WS	5
.x
	DW	.L1
.L2
	WS	5
.L3
	WS	5
.L4
	WS	5
.L5
	WS	5
.L6
	WS	5
.L7
	DW	.L2
	DW	.L3
	DW	.L4
	DW	.L5
	DW	.L6
.y
	DW	.L7
.f1
	ENTRY	0
	LDG	.y
	LDC	1
	LDW
	MREG
	RET
.f2
	ENTRY	0
	LDG	.y
	LDC	1
	LDW
	CALLF	0,.f1
	LDC	2
	LDW
	LDG	.c
	MUL
	LDG	.a
	LDG	.b
	MUL
	ADD
	LDW
	STG	.b
	POP
	RET
".
Proof. vm_compute. reflexivity. Qed.
Example t010_tac : compileText true false vm2tac t010_src = text ".a	DW	1
.b	DW	2
.c	DW	3
.L1	WS	5
.x	DW	.L1
.L2	WS	5
.L3	WS	5
.L4	WS	5
.L5	WS	5
.L6	WS	5
.L7	DW	.L2
	DW	.L3
	DW	.L4
	DW	.L5
	DW	.L6
.y	DW	.L7
.f1	PUSH	FP
	LD	FP,SP
	CALL	__stkChk
	LD	G0,.y
	ADDS	G0,#1
	LD	G0,0,G0
	POP	FP
	RET
.f2	PUSH	FP
	LD	FP,SP
	CALL	__stkChk
	LD	G0,.y
	ADDS	G0,#1
	LD	G0,0,G0
	PUSH	G0
	CALL	.f1
	ADDS	G0,#2
	LD	G0,0,G0
	MUL	G0,.c
	LD	G1,.a
	MUL	G1,.b
	ADD	G0,G1
	POP	G1
	ADDS	G1,G0
	LD	G1,0,G1
	ST	G1,.b
	POP	FP
	RET
".
Proof. vm_compute. reflexivity. Qed.

Definition t015_src : list Z := codes "# 0 ""/repo/Test/c--/t015.cmm""
# 0 ""<built-in>""
# 0 ""<command-line>""
# 1 ""/repo/Test/c--/t015.cmm""





int a=1;
public int b=2;
char c=chr(3);
public char[] x = array(5);
char[][] y = array(5,5);

char[] f1() {
  return y[1];
}

void f2() {
  c=y[1][a*b+ord(c)*ord(f1()[2])];
}
"%string.
Example t015_ic : compileText true false vm2ic t015_src = text "vmNam(0)
vmDwCns(1)
vmNam(1)
vmDwCns(2)
vmNam(2)
vmDwCns(3)
vmLab(1)
vmBs(5)
vmNam(3)
vmDwLab(1)
vmLab(2)
vmBs(5)
vmLab(3)
vmBs(5)
vmLab(4)
vmBs(5)
vmLab(5)
vmBs(5)
vmLab(6)
vmBs(5)
vmLab(7)
vmDwLab(2)
vmDwLab(3)
vmDwLab(4)
vmDwLab(5)
vmDwLab(6)
vmNam(4)
vmDwLab(7)
vmNam(5)
vmEntry(0)
vmLdGlb(4)
vmLdCns(1)
vmLdWrd()
vmMReg()
vmRet()
vmNam(6)
vmEntry(0)
vmLdGlb(4)
vmLdCns(1)
vmLdWrd()
vmCallF(0, 5)
vmLdCns(2)
vmLdByt()
vmLdGlb(2)
vmMul()
vmLdGlb(0)
vmLdGlb(1)
vmMul()
vmAdd()
vmLdByt()
vmStGlb(2)
vmPop()
vmRet()
".
Proof. vm_compute. reflexivity. Qed.
Example t015_vm : compileText true false vm2vm t015_src = text ".a
	DW	1
_b
	DW	2
.c
	DW	3
.L1
	BS	5
_x
	DW	.L1
.L2
	BS	5
.L3
	BS	5
.L4
	BS	5
.L5
	BS	5
.L6
	BS	5
.L7
	DW	.L2
	DW	.L3
	DW	.L4
	DW	.L5
	DW	.L6
.y
	DW	.L7
.f1
	ENTRY	0
	LDG	.y
	LDC	1
	LDW
	MREG
	RET
.f2
	ENTRY	0
	LDG	.y
	LDC	1
	LDW
	CALLF	0,.f1
	LDC	2
	LDB
	LDG	.c
	MUL
	LDG	.a
	LDG	_b
	MUL
	ADD
	LDB
	STG	.c
	POP
	RET
".
Proof. vm_compute. reflexivity. Qed.
Example t015_tac : compileText true false vm2tac t015_src = text ".a	DW	1
_b	DW	2
.c	DW	3
.L1	BS	5
_x	DW	.L1
.L2	BS	5
.L3	BS	5
.L4	BS	5
.L5	BS	5
.L6	BS	5
.L7	DW	.L2
	DW	.L3
	DW	.L4
	DW	.L5
	DW	.L6
.y	DW	.L7
.f1	PUSH	FP
	LD	FP,SP
	CALL	__stkChk
	LD	G0,.y
	ADDS	G0,#1
	LD	G0,0,G0
	POP	FP
	RET
.f2	PUSH	FP
	LD	FP,SP
	CALL	__stkChk
	LD	G0,.y
	ADDS	G0,#1
	LD	G0,0,G0
	PUSH	G0
	CALL	.f1
	ADD	G0,#2
	LD	G0,@G0
	MUL	G0,.c
	LD	G1,.a
	MUL	G1,_b
	ADD	G0,G1
	POP	G1
	ADD	G1,G0
	LD	G1,@G1
	ST	G1,.c
	POP	FP
	RET
".
Proof. vm_compute. reflexivity. Qed.

Definition t020_src : list Z := codes "# 0 ""/repo/Test/c--/t020.cmm""
# 0 ""<built-in>""
# 0 ""<command-line>""
# 1 ""/repo/Test/c--/t020.cmm""





public int f1();

int a=1;
int b=2;
int c=3;
int[] x = array(5);
int[][] y = array(5,5);

void f2() {
  b=y[1][a*b+c*f1()];
}
"%string.
Example t020_ic : compileText true false vm2ic t020_src = text "vmNam(1)
vmDwCns(1)
vmNam(2)
vmDwCns(2)
vmNam(3)
vmDwCns(3)
vmLab(1)
vmWs(5)
vmNam(4)
vmDwLab(1)
vmLab(2)
vmWs(5)
vmLab(3)
vmWs(5)
vmLab(4)
vmWs(5)
vmLab(5)
vmWs(5)
vmLab(6)
vmWs(5)
vmLab(7)
vmDwLab(2)
vmDwLab(3)
vmDwLab(4)
vmDwLab(5)
vmDwLab(6)
vmNam(5)
vmDwLab(7)
vmNam(6)
vmEntry(0)
vmLdGlb(5)
vmLdCns(1)
vmLdWrd()
vmCallF(0, 0)
vmLdGlb(3)
vmMul()
vmLdGlb(1)
vmLdGlb(2)
vmMul()
vmAdd()
vmLdWrd()
vmStGlb(2)
vmPop()
vmRet()
".
Proof. vm_compute. reflexivity. Qed.
Example t020_vm : compileText true false vm2vm t020_src = text ".a
	DW	1
.b
	DW	2
.c
	DW	3
.L1
	WS	5
.x
	DW	.L1
.L2
	WS	5
.L3
	WS	5
.L4
	WS	5
.L5
	WS	5
.L6
	WS	5
.L7
	DW	.L2
	DW	.L3
	DW	.L4
	DW	.L5
	DW	.L6
.y
	DW	.L7
.f2
	ENTRY	0
	LDG	.y
	LDC	1
	LDW
	CALLF	0,_f1
	LDG	.c
	MUL
	LDG	.a
	LDG	.b
	MUL
	ADD
	LDW
	STG	.b
	POP
	RET
".
Proof. vm_compute. reflexivity. Qed.
Example t020_tac : compileText true false vm2tac t020_src = text ".a	DW	1
.b	DW	2
.c	DW	3
.L1	WS	5
.x	DW	.L1
.L2	WS	5
.L3	WS	5
.L4	WS	5
.L5	WS	5
.L6	WS	5
.L7	DW	.L2
	DW	.L3
	DW	.L4
	DW	.L5
	DW	.L6
.y	DW	.L7
.f2	PUSH	FP
	LD	FP,SP
	CALL	__stkChk
	LD	G0,.y
	ADDS	G0,#1
	LD	G0,0,G0
	PUSH	G0
	CALL	_f1
	MUL	G0,.c
	LD	G1,.a
	MUL	G1,.b
	ADD	G0,G1
	POP	G1
	ADDS	G1,G0
	LD	G1,0,G1
	ST	G1,.b
	POP	FP
	RET
".
Proof. vm_compute. reflexivity. Qed.

Definition t031_src : list Z := codes "# 0 ""/repo/Test/c--/t031.cmm""
# 0 ""<built-in>""
# 0 ""<command-line>""
# 1 ""/repo/Test/c--/t031.cmm""





public int f1();
public int[] f2();
int a=1;
int b=2;
int[] c;
int[][] d;
struct X {int b,a;};
X e;

void f3() {
  c[1]=b=a*b+d[2+f2()[3+a]][c[4]+5+c[6]+f1()+b];




}
"%string.
Example t031_ic : compileText true false vm2ic t031_src = text "vmNam(2)
vmDwCns(1)
vmNam(3)
vmDwCns(2)
vmNam(4)
vmWs(1)
vmNam(5)
vmWs(1)
vmNam(9)
vmWs(1)
vmNam(10)
vmEntry(0)
vmLdGlb(5)
vmCallF(0, 1)
vmLdCns(3)
vmLdGlb(2)
vmAdd()
vmLdWrd()
vmLdCns(2)
vmAdd()
vmLdWrd()
vmCallF(0, 0)
vmLdGlb(4)
vmLdCns(4)
vmLdWrd()
vmLdCns(5)
vmAdd()
vmLdGlb(4)
vmLdCns(6)
vmLdWrd()
vmAdd()
vmAdd()
vmLdGlb(3)
vmAdd()
vmLdWrd()
vmLdGlb(2)
vmLdGlb(3)
vmMul()
vmAdd()
vmStGlb(3)
vmLdGlb(4)
vmLdCns(1)
vmStWrd()
vmPop()
vmRet()
".
Proof. vm_compute. reflexivity. Qed.
Example t031_vm : compileText true false vm2vm t031_src = text ".a
	DW	1
.b
	DW	2
.c
	WS	1
.d
	WS	1
.e
	WS	1
.f3
	ENTRY	0
	LDG	.d
	CALLF	0,_f2
	LDC	3
	LDG	.a
	ADD
	LDW
	LDC	2
	ADD
	LDW
	CALLF	0,_f1
	LDG	.c
	LDC	4
	LDW
	LDC	5
	ADD
	LDG	.c
	LDC	6
	LDW
	ADD
	ADD
	LDG	.b
	ADD
	LDW
	LDG	.a
	LDG	.b
	MUL
	ADD
	STG	.b
	LDG	.c
	LDC	1
	STW
	POP
	RET
".
Proof. vm_compute. reflexivity. Qed.
Example t031_tac : compileText true false vm2tac t031_src = text ".a	DW	1
.b	DW	2
.c	WS	1
.d	WS	1
.e	WS	1
.f3	PUSH	FP
	LD	FP,SP
	CALL	__stkChk
	CALL	_f2
	LD	G1,#3
	ADD	G1,.a
	ADDS	G0,G1
	LD	G0,0,G0
	ADD	G0,#2
	LD	G1,.d
	ADDS	G1,G0
	LD	G1,0,G1
	PUSH	G1
	CALL	_f1
	LD	G1,.c
	ADDS	G1,#4
	LD	G1,0,G1
	ADD	G1,#5
	LD	G2,.c
	ADDS	G2,#6
	ADD	G1,0,G2
	ADD	G0,G1
	ADD	G0,.b
	POP	G1
	ADDS	G1,G0
	LD	G0,.a
	MUL	G0,.b
	ADD	G0,0,G1
	ST	G0,.b
	LD	G1,.c
	ADDS	G1,#1
	ST	G0,0,G1
	POP	FP
	RET
".
Proof. vm_compute. reflexivity. Qed.

Definition t032_src : list Z := codes "# 0 ""/repo/Test/c--/t032.cmm""
# 0 ""<built-in>""
# 0 ""<command-line>""
# 1 ""/repo/Test/c--/t032.cmm""





public int f1();
public int[] f2();
int a=1;
int b=2;
int[] c;
int[][] d;
struct X {int b,a;};
X e;

void f3() {

  c[1]=b=a*b+d[2+c[3+a]][c[4]+5+c[6]+f1()+b];



}
"%string.
Example t032_ic : compileText true false vm2ic t032_src = text "vmNam(2)
vmDwCns(1)
vmNam(3)
vmDwCns(2)
vmNam(4)
vmWs(1)
vmNam(5)
vmWs(1)
vmNam(9)
vmWs(1)
vmNam(10)
vmEntry(0)
vmLdGlb(5)
vmLdGlb(4)
vmLdCns(3)
vmLdGlb(2)
vmAdd()
vmLdWrd()
vmLdCns(2)
vmAdd()
vmLdWrd()
vmCallF(0, 0)
vmLdGlb(4)
vmLdCns(4)
vmLdWrd()
vmLdCns(5)
vmAdd()
vmLdGlb(4)
vmLdCns(6)
vmLdWrd()
vmAdd()
vmAdd()
vmLdGlb(3)
vmAdd()
vmLdWrd()
vmLdGlb(2)
vmLdGlb(3)
vmMul()
vmAdd()
vmStGlb(3)
vmLdGlb(4)
vmLdCns(1)
vmStWrd()
vmPop()
vmRet()
".
Proof. vm_compute. reflexivity. Qed.
Example t032_vm : compileText true false vm2vm t032_src = text ".a
	DW	1
.b
	DW	2
.c
	WS	1
.d
	WS	1
.e
	WS	1
.f3
	ENTRY	0
	LDG	.d
	LDG	.c
	LDC	3
	LDG	.a
	ADD
	LDW
	LDC	2
	ADD
	LDW
	CALLF	0,_f1
	LDG	.c
	LDC	4
	LDW
	LDC	5
	ADD
	LDG	.c
	LDC	6
	LDW
	ADD
	ADD
	LDG	.b
	ADD
	LDW
	LDG	.a
	LDG	.b
	MUL
	ADD
	STG	.b
	LDG	.c
	LDC	1
	STW
	POP
	RET
".
Proof. vm_compute. reflexivity. Qed.
Example t032_tac : compileText true false vm2tac t032_src = text ".a	DW	1
.b	DW	2
.c	WS	1
.d	WS	1
.e	WS	1
.f3	PUSH	FP
	LD	FP,SP
	CALL	__stkChk
	LD	G0,#3
	ADD	G0,.a
	LD	G1,.c
	ADDS	G1,G0
	LD	G1,0,G1
	ADD	G1,#2
	LD	G0,.d
	ADDS	G0,G1
	LD	G0,0,G0
	PUSH	G0
	CALL	_f1
	LD	G1,.c
	ADDS	G1,#4
	LD	G1,0,G1
	ADD	G1,#5
	LD	G2,.c
	ADDS	G2,#6
	ADD	G1,0,G2
	ADD	G0,G1
	ADD	G0,.b
	POP	G1
	ADDS	G1,G0
	LD	G0,.a
	MUL	G0,.b
	ADD	G0,0,G1
	ST	G0,.b
	LD	G1,.c
	ADDS	G1,#1
	ST	G0,0,G1
	POP	FP
	RET
".
Proof. vm_compute. reflexivity. Qed.

Definition t033_src : list Z := codes "# 0 ""/repo/Test/c--/t033.cmm""
# 0 ""<built-in>""
# 0 ""<command-line>""
# 1 ""/repo/Test/c--/t033.cmm""





public int f1();
public int[] f2();
int a=1;
int b=2;
int[] c;
int[][] d;
struct X {int b,a;};
X e;

void f3() {


  c[1]=b=a*b+d[2+3+e.a][c[4]+5+c[6]+f1()+b];


}
"%string.
Example t033_ic : compileText true false vm2ic t033_src = text "vmNam(2)
vmDwCns(1)
vmNam(3)
vmDwCns(2)
vmNam(4)
vmWs(1)
vmNam(5)
vmWs(1)
vmNam(9)
vmWs(1)
vmNam(10)
vmEntry(0)
vmLdGlb(5)
vmLdGlb(9)
vmLdCns(1)
vmLdWrd()
vmLdCns(5)
vmAdd()
vmLdWrd()
vmCallF(0, 0)
vmLdGlb(4)
vmLdCns(4)
vmLdWrd()
vmLdCns(5)
vmAdd()
vmLdGlb(4)
vmLdCns(6)
vmLdWrd()
vmAdd()
vmAdd()
vmLdGlb(3)
vmAdd()
vmLdWrd()
vmLdGlb(2)
vmLdGlb(3)
vmMul()
vmAdd()
vmStGlb(3)
vmLdGlb(4)
vmLdCns(1)
vmStWrd()
vmPop()
vmRet()
".
Proof. vm_compute. reflexivity. Qed.
Example t033_vm : compileText true false vm2vm t033_src = text ".a
	DW	1
.b
	DW	2
.c
	WS	1
.d
	WS	1
.e
	WS	1
.f3
	ENTRY	0
	LDG	.d
	LDG	.e
	LDC	1
	LDW
	LDC	5
	ADD
	LDW
	CALLF	0,_f1
	LDG	.c
	LDC	4
	LDW
	LDC	5
	ADD
	LDG	.c
	LDC	6
	LDW
	ADD
	ADD
	LDG	.b
	ADD
	LDW
	LDG	.a
	LDG	.b
	MUL
	ADD
	STG	.b
	LDG	.c
	LDC	1
	STW
	POP
	RET
".
Proof. vm_compute. reflexivity. Qed.
Example t033_tac : compileText true false vm2tac t033_src = text ".a	DW	1
.b	DW	2
.c	WS	1
.d	WS	1
.e	WS	1
.f3	PUSH	FP
	LD	FP,SP
	CALL	__stkChk
	LD	G0,.e
	ADDS	G0,#1
	LD	G0,0,G0
	ADD	G0,#5
	LD	G1,.d
	ADDS	G1,G0
	LD	G1,0,G1
	PUSH	G1
	CALL	_f1
	LD	G1,.c
	ADDS	G1,#4
	LD	G1,0,G1
	ADD	G1,#5
	LD	G2,.c
	ADDS	G2,#6
	ADD	G1,0,G2
	ADD	G0,G1
	ADD	G0,.b
	POP	G1
	ADDS	G1,G0
	LD	G0,.a
	MUL	G0,.b
	ADD	G0,0,G1
	ST	G0,.b
	LD	G1,.c
	ADDS	G1,#1
	ST	G0,0,G1
	POP	FP
	RET
".
Proof. vm_compute. reflexivity. Qed.

Definition t034_src : list Z := codes "# 0 ""/repo/Test/c--/t034.cmm""
# 0 ""<built-in>""
# 0 ""<command-line>""
# 1 ""/repo/Test/c--/t034.cmm""





public int f1();
public int[] f2();
int a=1;
int b=2;
int[] c;
int[][] d;
struct X {int b,a;};
X e;

void f3() {



  c[1]=b=a*b+d[2+1][c[4]+5+c[6]+f1()+b];

}
"%string.
Example t034_ic : compileText true false vm2ic t034_src = text "vmNam(2)
vmDwCns(1)
vmNam(3)
vmDwCns(2)
vmNam(4)
vmWs(1)
vmNam(5)
vmWs(1)
vmNam(9)
vmWs(1)
vmNam(10)
vmEntry(0)
vmLdGlb(5)
vmLdCns(3)
vmLdWrd()
vmCallF(0, 0)
vmLdGlb(4)
vmLdCns(4)
vmLdWrd()
vmLdCns(5)
vmAdd()
vmLdGlb(4)
vmLdCns(6)
vmLdWrd()
vmAdd()
vmAdd()
vmLdGlb(3)
vmAdd()
vmLdWrd()
vmLdGlb(2)
vmLdGlb(3)
vmMul()
vmAdd()
vmStGlb(3)
vmLdGlb(4)
vmLdCns(1)
vmStWrd()
vmPop()
vmRet()
".
Proof. vm_compute. reflexivity. Qed.
Example t034_vm : compileText true false vm2vm t034_src = text ".a
	DW	1
.b
	DW	2
.c
	WS	1
.d
	WS	1
.e
	WS	1
.f3
	ENTRY	0
	LDG	.d
	LDC	3
	LDW
	CALLF	0,_f1
	LDG	.c
	LDC	4
	LDW
	LDC	5
	ADD
	LDG	.c
	LDC	6
	LDW
	ADD
	ADD
	LDG	.b
	ADD
	LDW
	LDG	.a
	LDG	.b
	MUL
	ADD
	STG	.b
	LDG	.c
	LDC	1
	STW
	POP
	RET
".
Proof. vm_compute. reflexivity. Qed.
Example t034_tac : compileText true false vm2tac t034_src = text ".a	DW	1
.b	DW	2
.c	WS	1
.d	WS	1
.e	WS	1
.f3	PUSH	FP
	LD	FP,SP
	CALL	__stkChk
	LD	G0,.d
	ADDS	G0,#3
	LD	G0,0,G0
	PUSH	G0
	CALL	_f1
	LD	G1,.c
	ADDS	G1,#4
	LD	G1,0,G1
	ADD	G1,#5
	LD	G2,.c
	ADDS	G2,#6
	ADD	G1,0,G2
	ADD	G0,G1
	ADD	G0,.b
	POP	G1
	ADDS	G1,G0
	LD	G0,.a
	MUL	G0,.b
	ADD	G0,0,G1
	ST	G0,.b
	LD	G1,.c
	ADDS	G1,#1
	ST	G0,0,G1
	POP	FP
	RET
".
Proof. vm_compute. reflexivity. Qed.

Definition t035_src : list Z := codes "# 0 ""/repo/Test/c--/t035.cmm""
# 0 ""<built-in>""
# 0 ""<command-line>""
# 1 ""/repo/Test/c--/t035.cmm""





public int f1();
public int[] f2();
int a=1;
int b=2;
int[] c;
int[][] d;
struct X {int b,a;};
X e;

void f3() {




    c[1]=b=a*b+a*b+d[2+1][2+1];
}
"%string.
Example t035_ic : compileText true false vm2ic t035_src = text "vmNam(2)
vmDwCns(1)
vmNam(3)
vmDwCns(2)
vmNam(4)
vmWs(1)
vmNam(5)
vmWs(1)
vmNam(9)
vmWs(1)
vmNam(10)
vmEntry(0)
vmLdGlb(2)
vmLdGlb(3)
vmMul()
vmLdGlb(2)
vmLdGlb(3)
vmMul()
vmAdd()
vmLdGlb(5)
vmLdCns(3)
vmLdWrd()
vmLdCns(3)
vmLdWrd()
vmAdd()
vmStGlb(3)
vmLdGlb(4)
vmLdCns(1)
vmStWrd()
vmPop()
vmRet()
".
Proof. vm_compute. reflexivity. Qed.
Example t035_vm : compileText true false vm2vm t035_src = text ".a
	DW	1
.b
	DW	2
.c
	WS	1
.d
	WS	1
.e
	WS	1
.f3
	ENTRY	0
	LDG	.a
	LDG	.b
	MUL
	LDG	.a
	LDG	.b
	MUL
	ADD
	LDG	.d
	LDC	3
	LDW
	LDC	3
	LDW
	ADD
	STG	.b
	LDG	.c
	LDC	1
	STW
	POP
	RET
".
Proof. vm_compute. reflexivity. Qed.
Example t035_tac : compileText true false vm2tac t035_src = text ".a	DW	1
.b	DW	2
.c	WS	1
.d	WS	1
.e	WS	1
.f3	PUSH	FP
	LD	FP,SP
	CALL	__stkChk
	LD	G0,.a
	MUL	G0,.b
	LD	G1,.a
	MUL	G1,.b
	ADD	G0,G1
	LD	G1,.d
	ADDS	G1,#3
	LD	G1,0,G1
	ADDS	G1,#3
	ADD	G0,0,G1
	ST	G0,.b
	LD	G1,.c
	ADDS	G1,#1
	ST	G0,0,G1
	POP	FP
	RET
".
Proof. vm_compute. reflexivity. Qed.

Definition t040_src : list Z := codes "# 0 ""/repo/Test/c--/t040.cmm""
# 0 ""<built-in>""
# 0 ""<command-line>""
# 1 ""/repo/Test/c--/t040.cmm""






int a=1;
int b=2;
int[] c;
int[][] d;

void f3() {
  b=d[1][a*b+a*b+c[1]+a*b];
}
"%string.
Example t040_ic : compileText true false vm2ic t040_src = text "vmNam(0)
vmDwCns(1)
vmNam(1)
vmDwCns(2)
vmNam(2)
vmWs(1)
vmNam(3)
vmWs(1)
vmNam(4)
vmEntry(0)
vmLdGlb(3)
vmLdCns(1)
vmLdWrd()
vmLdGlb(0)
vmLdGlb(1)
vmMul()
vmLdGlb(0)
vmLdGlb(1)
vmMul()
vmAdd()
vmLdGlb(2)
vmLdCns(1)
vmLdWrd()
vmAdd()
vmLdGlb(0)
vmLdGlb(1)
vmMul()
vmAdd()
vmLdWrd()
vmStGlb(1)
vmPop()
vmRet()
".
Proof. vm_compute. reflexivity. Qed.
Example t040_vm : compileText true false vm2vm t040_src = text ".a
	DW	1
.b
	DW	2
.c
	WS	1
.d
	WS	1
.f3
	ENTRY	0
	LDG	.d
	LDC	1
	LDW
	LDG	.a
	LDG	.b
	MUL
	LDG	.a
	LDG	.b
	MUL
	ADD
	LDG	.c
	LDC	1
	LDW
	ADD
	LDG	.a
	LDG	.b
	MUL
	ADD
	LDW
	STG	.b
	POP
	RET
".
Proof. vm_compute. reflexivity. Qed.
Example t040_tac : compileText true false vm2tac t040_src = text ".a	DW	1
.b	DW	2
.c	WS	1
.d	WS	1
.f3	PUSH	FP
	LD	FP,SP
	CALL	__stkChk
	LD	G0,.d
	ADDS	G0,#1
	LD	G1,.a
	MUL	G1,.b
	LD	G2,.a
	MUL	G2,.b
	ADD	G1,G2
	LD	G2,.c
	ADDS	G2,#1
	ADD	G1,0,G2
	LD	G2,.a
	MUL	G2,.b
	ADD	G1,G2
	LD	G0,0,G0
	ADDS	G0,G1
	LD	G0,0,G0
	ST	G0,.b
	POP	FP
	RET
".
Proof. vm_compute. reflexivity. Qed.

Definition t050_src : list Z := codes "# 0 ""/repo/Test/c--/t050.cmm""
# 0 ""<built-in>""
# 0 ""<command-line>""
# 1 ""/repo/Test/c--/t050.cmm""






int a=1;
int b=2;
int[] c;
int[][] d;

void f3() {
  b=d[1][a*b+c[a*b+c[a*b]]+a*b];
}
"%string.
Example t050_ic : compileText true false vm2ic t050_src = text "vmNam(0)
vmDwCns(1)
vmNam(1)
vmDwCns(2)
vmNam(2)
vmWs(1)
vmNam(3)
vmWs(1)
vmNam(4)
vmEntry(0)
vmLdGlb(3)
vmLdCns(1)
vmLdWrd()
vmLdGlb(2)
vmLdGlb(2)
vmLdGlb(0)
vmLdGlb(1)
vmMul()
vmLdWrd()
vmLdGlb(0)
vmLdGlb(1)
vmMul()
vmAdd()
vmLdWrd()
vmLdGlb(0)
vmLdGlb(1)
vmMul()
vmAdd()
vmLdGlb(0)
vmLdGlb(1)
vmMul()
vmAdd()
vmLdWrd()
vmStGlb(1)
vmPop()
vmRet()
".
Proof. vm_compute. reflexivity. Qed.
Example t050_vm : compileText true false vm2vm t050_src = text ".a
	DW	1
.b
	DW	2
.c
	WS	1
.d
	WS	1
.f3
	ENTRY	0
	LDG	.d
	LDC	1
	LDW
	LDG	.c
	LDG	.c
	LDG	.a
	LDG	.b
	MUL
	LDW
	LDG	.a
	LDG	.b
	MUL
	ADD
	LDW
	LDG	.a
	LDG	.b
	MUL
	ADD
	LDG	.a
	LDG	.b
	MUL
	ADD
	LDW
	STG	.b
	POP
	RET
".
Proof. vm_compute. reflexivity. Qed.
Example t050_tac : compileText true false vm2tac t050_src = text ".a	DW	1
.b	DW	2
.c	WS	1
.d	WS	1
.f3	PUSH	FP
	LD	FP,SP
	CALL	__stkChk
	LD	G0,.d
	ADDS	G0,#1
	LD	G1,.a
	MUL	G1,.b
	LD	G2,.c
	ADDS	G2,G1
	LD	G1,.a
	MUL	G1,.b
	ADD	G1,0,G2
	LD	G2,.c
	ADDS	G2,G1
	LD	G1,.a
	MUL	G1,.b
	ADD	G1,0,G2
	LD	G2,.a
	MUL	G2,.b
	ADD	G1,G2
	LD	G0,0,G0
	ADDS	G0,G1
	LD	G0,0,G0
	ST	G0,.b
	POP	FP
	RET
".
Proof. vm_compute. reflexivity. Qed.

Definition t060_src : list Z := codes "# 0 ""/repo/Test/c--/t060.cmm""
# 0 ""<built-in>""
# 0 ""<command-line>""
# 1 ""/repo/Test/c--/t060.cmm""





int a,b,c,d;

void f3() {
  a = a * ( b + c );
}
"%string.
Example t060_ic : compileText true false vm2ic t060_src = text "vmNam(0)
vmWs(1)
vmNam(1)
vmWs(1)
vmNam(2)
vmWs(1)
vmNam(3)
vmWs(1)
vmNam(4)
vmEntry(0)
vmLdGlb(1)
vmLdGlb(2)
vmAdd()
vmLdGlb(0)
vmMul()
vmStGlb(0)
vmPop()
vmRet()
".
Proof. vm_compute. reflexivity. Qed.
Example t060_vm : compileText true false vm2vm t060_src = text ".a
	WS	1
.b
	WS	1
.c
	WS	1
.d
	WS	1
.f3
	ENTRY	0
	LDG	.b
	LDG	.c
	ADD
	LDG	.a
	MUL
	STG	.a
	POP
	RET
".
Proof. vm_compute. reflexivity. Qed.
Example t060_tac : compileText true false vm2tac t060_src = text ".a	WS	1
.b	WS	1
.c	WS	1
.d	WS	1
.f3	PUSH	FP
	LD	FP,SP
	CALL	__stkChk
	LD	G0,.b
	ADD	G0,.c
	MUL	G0,.a
	ST	G0,.a
	POP	FP
	RET
".
Proof. vm_compute. reflexivity. Qed.

Definition t070_src : list Z := codes "# 0 ""/repo/Test/c--/t070.cmm""
# 0 ""<built-in>""
# 0 ""<command-line>""
# 1 ""/repo/Test/c--/t070.cmm""





public int f1(int a);

void f2() {
  int a;
  do {
    a = f1(1);
    if (a>10) break;
    else continue;
    while (true) {
      break;
    }
    break;
  } while (a==0);
}
"%string.
Example t070_ic : compileText true false vm2ic t070_src = text "vmNam(2)
vmEntry(1)
vmLab(1)
vmLdCns(1)
vmArg()
vmCallF(1, 0)
vmStLoc(1)
vmPop()
vmLdLoc(1)
vmLdCns(10)
vmGt()
vmJF(2)
vmJmp(3)
vmLab(2)
vmJmp(4)
vmLab(5)
vmJmp(6)
vmLab(6)
vmJmp(3)
vmLab(4)
vmLdLoc(1)
vmLdCns(0)
vmEq()
vmJT(1)
vmLab(3)
vmRet()
".
Proof. vm_compute. reflexivity. Qed.
Example t070_vm : compileText true false vm2vm t070_src = text ".f2
	ENTRY	1
.L1
	LDC	1
	ARG
	CALLF	1,_f1
	STL	1
	POP
	LDL	1
	LDC	10
	GT
	JF	.L2
	JMP	.L3
.L2
	JMP	.L4
.L5
	JMP	.L6
.L6
	JMP	.L3
.L4
	LDL	1
	LDC	0
	EQ
	JT	.L1
.L3
	RET
".
Proof. vm_compute. reflexivity. Qed.
Example t070_tac : compileText true false vm2tac t070_src = text ".f2	PUSH	FP
	LD	FP,SP
	PUSH	G3
	CALL	__stkChk
.L1
	LD	G0,#1
	PUSH	G0
	CALL	_f1
	ADD	SP,#2
	LD	G3,G0
	CMP	G3,#10
	JLE	.L2
	JMP	.L3
.L2
	JMP	.L4
.L5
	JMP	.L6
.L6
	JMP	.L3
.L4
	CMP	G3,#0
	JZ	.L1
.L3
	POP	G3
	POP	FP
	RET
".
Proof. vm_compute. reflexivity. Qed.

Definition t080_src : list Z := codes "# 0 ""/repo/Test/c--/t080.cmm""
# 0 ""<built-in>""
# 0 ""<command-line>""
# 1 ""/repo/Test/c--/t080.cmm""





int a = 1;
boolean b = true;
char[] c = ""abc"";
int[] d = { 1,2,3};
boolean[] e = { true, false };
int[][] f = { { 1,2 }, { 3, 4}};
boolean[][] g = { { true, false}, {true, false}};

struct X {
  int a;
  boolean b;
  char[] c;
};

X h = { 1, true, ""abc"" };
X[] i = {{ 1, true, ""abc"" }, {2,false,""def""}};

void f0();

boolean f1(boolean t) {
  b = t && (a < 0);
  b = (1 + 2 == 3 + 4 && b) && 0 < 1;
  while (b==true) {
    b = e[a];
    b = !b;
  }
  for(int i=0;i==10;i=i+1)
   ;
  return b==false;
}
"%string.
Example t080_ic : compileText true false vm2ic t080_src = text "vmNam(0)
vmDwCns(1)
vmNam(1)
vmDwCns(1)
vmLab(1)
vmStr(""abc"")
vmNam(2)
vmDwLab(1)
vmLab(2)
vmDwCns(1)
vmDwCns(2)
vmDwCns(3)
vmNam(3)
vmDwLab(2)
vmLab(3)
vmDbCns(1)
vmDbCns(0)
vmNam(4)
vmDwLab(3)
vmLab(4)
vmDwCns(1)
vmDwCns(2)
vmLab(5)
vmDwCns(3)
vmDwCns(4)
vmLab(6)
vmDwLab(4)
vmDwLab(5)
vmNam(5)
vmDwLab(6)
vmLab(7)
vmDbCns(1)
vmDbCns(0)
vmLab(8)
vmDbCns(1)
vmDbCns(0)
vmLab(9)
vmDwLab(7)
vmDwLab(8)
vmNam(6)
vmDwLab(9)
vmLab(10)
vmStr(""abc"")
vmLab(11)
vmDwCns(1)
vmDwCns(1)
vmDwLab(10)
vmNam(11)
vmDwLab(11)
vmLab(12)
vmStr(""abc"")
vmLab(13)
vmStr(""def"")
vmLab(14)
vmDwCns(1)
vmDwCns(1)
vmDwLab(12)
vmLab(15)
vmDwCns(2)
vmDwCns(0)
vmDwLab(13)
vmLab(16)
vmDwLab(14)
vmDwLab(15)
vmNam(12)
vmDwLab(16)
vmNam(14)
vmEntry(1)
vmLdPrm(1)
vmJF(18)
vmLdGlb(0)
vmLdCns(0)
vmLt()
vmBoolAND(18, -1, 17)
vmStGlb(1)
vmPop()
vmLdCns(0)
vmStGlb(1)
vmPop()
vmLab(19)
vmLdGlb(1)
vmLdCns(1)
vmEq()
vmJF(20)
vmLdGlb(4)
vmLdGlb(0)
vmLdByt()
vmStGlb(1)
vmPop()
vmLdGlb(1)
vmNot()
vmStGlb(1)
vmPop()
vmJmp(19)
vmLab(20)
vmLdCns(0)
vmStLoc(1)
vmPop()
vmLab(21)
vmLdLoc(1)
vmLdCns(10)
vmEq()
vmJF(22)
vmLdLoc(1)
vmLdCns(1)
vmAdd()
vmStLoc(1)
vmPop()
vmJmp(21)
vmLab(22)
vmLdGlb(1)
vmLdCns(0)
vmEq()
vmMReg()
vmRet()
".
Proof. vm_compute. reflexivity. Qed.
Example t080_vm : compileText true false vm2vm t080_src = text ".a
	DW	1
.b
	DW	1
.L1
	STRING	""abc""
.c
	DW	.L1
.L2
	DW	1
	DW	2
	DW	3
.d
	DW	.L2
.L3
	DB	1
	DB	0
.e
	DW	.L3
.L4
	DW	1
	DW	2
.L5
	DW	3
	DW	4
.L6
	DW	.L4
	DW	.L5
.f
	DW	.L6
.L7
	DB	1
	DB	0
.L8
	DB	1
	DB	0
.L9
	DW	.L7
	DW	.L8
.g
	DW	.L9
.L10
	STRING	""abc""
.L11
	DW	1
	DW	1
	DW	.L10
.h
	DW	.L11
.L12
	STRING	""abc""
.L13
	STRING	""def""
.L14
	DW	1
	DW	1
	DW	.L12
.L15
	DW	2
	DW	0
	DW	.L13
.L16
	DW	.L14
	DW	.L15
.i
	DW	.L16
.f1
	ENTRY	1
	LDP	1
	JF	.L18
	LDG	.a
	LDC	0
	LT
; BOOLAND .L18,.L-1,.L17
	JMP	.L17
.L18
	LDC	0
.L17
; ----
	STG	.b
	POP
	LDC	0
	STG	.b
	POP
.L19
	LDG	.b
	LDC	1
	EQ
	JF	.L20
	LDG	.e
	LDG	.a
	LDB
	STG	.b
	POP
	LDG	.b
	NOT
	STG	.b
	POP
	JMP	.L19
.L20
	LDC	0
	STL	1
	POP
.L21
	LDL	1
	LDC	10
	EQ
	JF	.L22
	LDL	1
	LDC	1
	ADD
	STL	1
	POP
	JMP	.L21
.L22
	LDG	.b
	LDC	0
	EQ
	MREG
	RET
".
Proof. vm_compute. reflexivity. Qed.
Example t080_tac : compileText true false vm2tac t080_src = text ".a	DW	1
.b	DW	1
.L1	STRING	""abc""
.c	DW	.L1
.L2	DW	1
	DW	2
	DW	3
.d	DW	.L2
.L3	DB	1
	DB	0
.e	DW	.L3
.L4	DW	1
	DW	2
.L5	DW	3
	DW	4
.L6	DW	.L4
	DW	.L5
.f	DW	.L6
.L7	DB	1
	DB	0
.L8	DB	1
	DB	0
.L9	DW	.L7
	DW	.L8
.g	DW	.L9
.L10	STRING	""abc""
.L11	DW	1
	DW	1
	DW	.L10
.h	DW	.L11
.L12	STRING	""abc""
.L13	STRING	""def""
.L14	DW	1
	DW	1
	DW	.L12
.L15	DW	2
	DW	0
	DW	.L13
.L16	DW	.L14
	DW	.L15
.i	DW	.L16
.f1	PUSH	FP
	LD	FP,SP
	PUSH	G3
	CALL	__stkChk
	LD	G0,4,FP
	CMP	G0,#0
	JZ	.L18
	LD	G0,.a
	CMP	G0,#0
	LD	G0,#1
	JLT	.L17
.L18
	LD	G0,#0
.L17
	ST	G0,.b
	LD	G0,#0
	ST	G0,.b
.L19
	LD	G0,.b
	CMP	G0,#1
	JNZ	.L20
	LD	G0,.e
	ADD	G0,.a
	LD	G0,@G0
	ST	G0,.b
	LD	G0,.b
	XOR	G0,#1
	ST	G0,.b
	JMP	.L19
.L20
	LD	G3,#0
.L21
	CMP	G3,#10
	JNZ	.L22
	LD	G0,G3
	ADD	G0,#1
	LD	G3,G0
	JMP	.L21
.L22
	LD	G0,.b
	CMP	G0,#0
	LD	G0,#1
	JZ	.T0
	LD	G0,#0
.T0
	POP	G3
	POP	FP
	RET
".
Proof. vm_compute. reflexivity. Qed.

Definition t090_src : list Z := codes "# 0 ""/repo/Test/c--/t090.cmm""
# 0 ""<built-in>""
# 0 ""<command-line>""
# 1 ""/repo/Test/c--/t090.cmm""





int a;
boolean b = true;
boolean[] e = { true, false };

struct X {
  int a;
  boolean b;
  char[] c;
};

X h = { 1, true, ""abc"" };
X[] i = {{ 1, true, ""abc"" }, {2,false,""def""}};

boolean f1(boolean t) {
  b = (a < 0 ) && t;
  b = t && (a < 0);
  b = (1 + 2 == 3 + 4 && b) && 0 < 1;
  b = (1 + 2 == 3 + 4 || b) || 0 < 1;
  while (b==true) {
    b = !b;
  }
  for(int i=0;i==10;i=i+1)
   ;
  return b==false;
}
"%string.
Example t090_ic : compileText true false vm2ic t090_src = text "vmNam(0)
vmWs(1)
vmNam(1)
vmDwCns(1)
vmLab(1)
vmDbCns(1)
vmDbCns(0)
vmNam(2)
vmDwLab(1)
vmLab(2)
vmStr(""abc"")
vmLab(3)
vmDwCns(1)
vmDwCns(1)
vmDwLab(2)
vmNam(7)
vmDwLab(3)
vmLab(4)
vmStr(""abc"")
vmLab(5)
vmStr(""def"")
vmLab(6)
vmDwCns(1)
vmDwCns(1)
vmDwLab(4)
vmLab(7)
vmDwCns(2)
vmDwCns(0)
vmDwLab(5)
vmLab(8)
vmDwLab(6)
vmDwLab(7)
vmNam(8)
vmDwLab(8)
vmNam(9)
vmEntry(1)
vmLdGlb(0)
vmLdCns(0)
vmLt()
vmJF(10)
vmLdPrm(1)
vmBoolAND(10, -1, 9)
vmStGlb(1)
vmPop()
vmLdPrm(1)
vmJF(12)
vmLdGlb(0)
vmLdCns(0)
vmLt()
vmBoolAND(12, -1, 11)
vmStGlb(1)
vmPop()
vmLdCns(0)
vmStGlb(1)
vmPop()
vmLdCns(1)
vmStGlb(1)
vmPop()
vmLab(13)
vmLdGlb(1)
vmLdCns(1)
vmEq()
vmJF(14)
vmLdGlb(1)
vmNot()
vmStGlb(1)
vmPop()
vmJmp(13)
vmLab(14)
vmLdCns(0)
vmStLoc(1)
vmPop()
vmLab(15)
vmLdLoc(1)
vmLdCns(10)
vmEq()
vmJF(16)
vmLdLoc(1)
vmLdCns(1)
vmAdd()
vmStLoc(1)
vmPop()
vmJmp(15)
vmLab(16)
vmLdGlb(1)
vmLdCns(0)
vmEq()
vmMReg()
vmRet()
".
Proof. vm_compute. reflexivity. Qed.
Example t090_vm : compileText true false vm2vm t090_src = text ".a
	WS	1
.b
	DW	1
.L1
	DB	1
	DB	0
.e
	DW	.L1
.L2
	STRING	""abc""
.L3
	DW	1
	DW	1
	DW	.L2
.h
	DW	.L3
.L4
	STRING	""abc""
.L5
	STRING	""def""
.L6
	DW	1
	DW	1
	DW	.L4
.L7
	DW	2
	DW	0
	DW	.L5
.L8
	DW	.L6
	DW	.L7
.i
	DW	.L8
.f1
	ENTRY	1
	LDG	.a
	LDC	0
	LT
	JF	.L10
	LDP	1
; BOOLAND .L10,.L-1,.L9
	JMP	.L9
.L10
	LDC	0
.L9
; ----
	STG	.b
	POP
	LDP	1
	JF	.L12
	LDG	.a
	LDC	0
	LT
; BOOLAND .L12,.L-1,.L11
	JMP	.L11
.L12
	LDC	0
.L11
; ----
	STG	.b
	POP
	LDC	0
	STG	.b
	POP
	LDC	1
	STG	.b
	POP
.L13
	LDG	.b
	LDC	1
	EQ
	JF	.L14
	LDG	.b
	NOT
	STG	.b
	POP
	JMP	.L13
.L14
	LDC	0
	STL	1
	POP
.L15
	LDL	1
	LDC	10
	EQ
	JF	.L16
	LDL	1
	LDC	1
	ADD
	STL	1
	POP
	JMP	.L15
.L16
	LDG	.b
	LDC	0
	EQ
	MREG
	RET
".
Proof. vm_compute. reflexivity. Qed.
Example t090_tac : compileText true false vm2tac t090_src = text ".a	WS	1
.b	DW	1
.L1	DB	1
	DB	0
.e	DW	.L1
.L2	STRING	""abc""
.L3	DW	1
	DW	1
	DW	.L2
.h	DW	.L3
.L4	STRING	""abc""
.L5	STRING	""def""
.L6	DW	1
	DW	1
	DW	.L4
.L7	DW	2
	DW	0
	DW	.L5
.L8	DW	.L6
	DW	.L7
.i	DW	.L8
.f1	PUSH	FP
	LD	FP,SP
	PUSH	G3
	CALL	__stkChk
	LD	G0,.a
	CMP	G0,#0
	JGE	.L10
	LD	G0,4,FP
	JMP	.L9
.L10
	LD	G0,#0
.L9
	ST	G0,.b
	LD	G0,4,FP
	CMP	G0,#0
	JZ	.L12
	LD	G0,.a
	CMP	G0,#0
	LD	G0,#1
	JLT	.L11
.L12
	LD	G0,#0
.L11
	ST	G0,.b
	LD	G0,#0
	ST	G0,.b
	LD	G0,#1
	ST	G0,.b
.L13
	LD	G0,.b
	CMP	G0,#1
	JNZ	.L14
	LD	G0,.b
	XOR	G0,#1
	ST	G0,.b
	JMP	.L13
.L14
	LD	G3,#0
.L15
	CMP	G3,#10
	JNZ	.L16
	LD	G0,G3
	ADD	G0,#1
	LD	G3,G0
	JMP	.L15
.L16
	LD	G0,.b
	CMP	G0,#0
	LD	G0,#1
	JZ	.T0
	LD	G0,#0
.T0
	POP	G3
	POP	FP
	RET
".
Proof. vm_compute. reflexivity. Qed.

Definition t100_src : list Z := codes "# 0 ""/repo/Test/c--/t100.cmm""
# 0 ""<built-in>""
# 0 ""<command-line>""
# 1 ""/repo/Test/c--/t100.cmm""





int a = 5, b = 3, c = 2;

public void f(int n, char[] s);

public int main() {
  for (int x=a; x<b; x=x+c)
    f(x*x, ""abc"");
  return 0;
}
"%string.
Example t100_ic : compileText true false vm2ic t100_src = text "vmNam(0)
vmDwCns(5)
vmNam(1)
vmDwCns(3)
vmNam(2)
vmDwCns(2)
vmLab(1)
vmStr(""abc"")
vmNam(6)
vmEntry(1)
vmLdGlb(0)
vmStLoc(1)
vmPop()
vmLab(2)
vmLdLoc(1)
vmLdGlb(1)
vmLt()
vmJF(3)
vmLdLab(1)
vmArg()
vmLdLoc(1)
vmLdLoc(1)
vmMul()
vmArg()
vmCallP(2, 3)
vmLdLoc(1)
vmLdGlb(2)
vmAdd()
vmStLoc(1)
vmPop()
vmJmp(2)
vmLab(3)
vmLdCns(0)
vmMReg()
vmRet()
".
Proof. vm_compute. reflexivity. Qed.
Example t100_vm : compileText true false vm2vm t100_src = text ".a
	DW	5
.b
	DW	3
.c
	DW	2
.L1
	STRING	""abc""
_main
	ENTRY	1
	LDG	.a
	STL	1
	POP
.L2
	LDL	1
	LDG	.b
	LT
	JF	.L3
	LDC	.L1
	ARG
	LDL	1
	LDL	1
	MUL
	ARG
	CALLP	2,_f
	LDL	1
	LDG	.c
	ADD
	STL	1
	POP
	JMP	.L2
.L3
	LDC	0
	MREG
	RET
".
Proof. vm_compute. reflexivity. Qed.
Example t100_tac : compileText true false vm2tac t100_src = text ".a	DW	5
.b	DW	3
.c	DW	2
.L1	STRING	""abc""
_main	PUSH	FP
	LD	FP,SP
	PUSH	G3
	CALL	__stkChk
	LD	G3,.a
.L2
	CMP	G3,.b
	JGE	.L3
	LD	G0,#.L1
	PUSH	G0
	LD	G0,G3
	MUL	G0,G3
	PUSH	G0
	CALL	_f
	ADD	SP,#4
	LD	G0,G3
	ADD	G0,.c
	LD	G3,G0
	JMP	.L2
.L3
	LD	G0,#0
	POP	G3
	POP	FP
	RET
".
Proof. vm_compute. reflexivity. Qed.

Definition t110_src : list Z := codes "# 0 ""/repo/Test/c--/t110.cmm""
# 0 ""<built-in>""
# 0 ""<command-line>""
# 1 ""/repo/Test/c--/t110.cmm""





int a = 1;
int b = -1;
int[] c = {1,-1,-10};
struct
 X { int x; boolean y; };
X d = {-1,true};
X[] e = {{1,false},{-1,true}};

public int main() {
  int f = 1;
  int g = -1;
  return 0;
}
"%string.
Example t110_ic : compileText true false vm2ic t110_src = text "vmNam(0)
vmDwCns(1)
vmNam(1)
vmDwCns(65535)
vmLab(1)
vmDwCns(1)
vmDwCns(65535)
vmDwCns(65526)
vmNam(2)
vmDwLab(1)
vmLab(2)
vmDwCns(65535)
vmDwCns(1)
vmNam(6)
vmDwLab(2)
vmLab(3)
vmDwCns(1)
vmDwCns(0)
vmLab(4)
vmDwCns(65535)
vmDwCns(1)
vmLab(5)
vmDwLab(3)
vmDwLab(4)
vmNam(7)
vmDwLab(5)
vmNam(8)
vmEntry(2)
vmLdCns(1)
vmStLoc(1)
vmPop()
vmLdCns(65535)
vmStLoc(2)
vmPop()
vmLdCns(0)
vmMReg()
vmRet()
".
Proof. vm_compute. reflexivity. Qed.
Example t110_vm : compileText true false vm2vm t110_src = text ".a
	DW	1
.b
	DW	65535
.L1
	DW	1
	DW	65535
	DW	65526
.c
	DW	.L1
.L2
	DW	65535
	DW	1
.d
	DW	.L2
.L3
	DW	1
	DW	0
.L4
	DW	65535
	DW	1
.L5
	DW	.L3
	DW	.L4
.e
	DW	.L5
_main
	ENTRY	2
	LDC	1
	STL	1
	POP
	LDC	65535
	STL	2
	POP
	LDC	0
	MREG
	RET
".
Proof. vm_compute. reflexivity. Qed.
Example t110_tac : compileText true false vm2tac t110_src = text ".a	DW	1
.b	DW	65535
.L1	DW	1
	DW	65535
	DW	65526
.c	DW	.L1
.L2	DW	65535
	DW	1
.d	DW	.L2
.L3	DW	1
	DW	0
.L4	DW	65535
	DW	1
.L5	DW	.L3
	DW	.L4
.e	DW	.L5
_main	PUSH	FP
	LD	FP,SP
	PUSH	G3
	PUSH	G4
	CALL	__stkChk
	LD	G3,#1
	LD	G4,#65535
	LD	G0,#0
	POP	G4
	POP	G3
	POP	FP
	RET
".
Proof. vm_compute. reflexivity. Qed.

Definition t120_src : list Z := codes "# 0 ""/repo/Test/c--/t120.cmm""
# 0 ""<built-in>""
# 0 ""<command-line>""
# 1 ""/repo/Test/c--/t120.cmm""





int x;
int y;
int x=1;
int x;
int y;

int a = 5, b = 3, c = 2;

int f(int n, char[] s);
int f(int n, char[] s);

int f(int a, char[] s) { return a=b;}

int f(int n, char[] s);

public int main() {
  a=x;
  b=y;
  for (int x=a; x<b; x=x+c)
    c=a+b+f(x*x, ""abc\r\n"");
  return 0;
}
"%string.
Example t120_ic : compileText true false vm2ic t120_src = text "vmNam(0)
vmWs(1)
vmNam(1)
vmWs(1)
vmNam(2)
vmDwCns(1)
vmNam(2)
vmDwCns(5)
vmNam(3)
vmDwCns(3)
vmNam(4)
vmDwCns(2)
vmNam(8)
vmEntry(0)
vmLdGlb(3)
vmStPrm(1)
vmMReg()
vmRet()
vmLab(1)
vmStr(""abc\r\n"")
vmNam(8)
vmEntry(1)
vmLdGlb(0)
vmStGlb(2)
vmPop()
vmLdGlb(1)
vmStGlb(3)
vmPop()
vmLdGlb(2)
vmStLoc(1)
vmPop()
vmLab(2)
vmLdLoc(1)
vmLdGlb(3)
vmLt()
vmJF(3)
vmLdLab(1)
vmArg()
vmLdLoc(1)
vmLdLoc(1)
vmMul()
vmArg()
vmCallF(2, 5)
vmLdGlb(2)
vmLdGlb(3)
vmAdd()
vmAdd()
vmStGlb(4)
vmPop()
vmLdLoc(1)
vmLdGlb(4)
vmAdd()
vmStLoc(1)
vmPop()
vmJmp(2)
vmLab(3)
vmLdCns(0)
vmMReg()
vmRet()
".
Proof. vm_compute. reflexivity. Qed.
Example t120_vm : compileText true false vm2vm t120_src = text ".x
	WS	1
.y
	WS	1
.x
	DW	1
.a
	DW	5
.b
	DW	3
.c
	DW	2
.f
	ENTRY	0
	LDG	.b
	STP	1
	MREG
	RET
.L1
	STRING	""abc\r\n""
_main
	ENTRY	1
	LDG	.x
	STG	.a
	POP
	LDG	.y
	STG	.b
	POP
	LDG	.a
	STL	1
	POP
.L2
	LDL	1
	LDG	.b
	LT
	JF	.L3
	LDC	.L1
	ARG
	LDL	1
	LDL	1
	MUL
	ARG
	CALLF	2,.f
	LDG	.a
	LDG	.b
	ADD
	ADD
	STG	.c
	POP
	LDL	1
	LDG	.c
	ADD
	STL	1
	POP
	JMP	.L2
.L3
	LDC	0
	MREG
	RET
".
Proof. vm_compute. reflexivity. Qed.
Example t120_tac : compileText true false vm2tac t120_src = text ".x	WS	1
.y	WS	1
.x	DW	1
.a	DW	5
.b	DW	3
.c	DW	2
.f	PUSH	FP
	LD	FP,SP
	CALL	__stkChk
	LD	G0,.b
	ST	G0,4,FP
	POP	FP
	RET
.L1	STRING	""abc\r\n""
_main	PUSH	FP
	LD	FP,SP
	PUSH	G3
	CALL	__stkChk
	LD	G0,.x
	ST	G0,.a
	LD	G0,.y
	ST	G0,.b
	LD	G3,.a
.L2
	CMP	G3,.b
	JGE	.L3
	LD	G0,#.L1
	PUSH	G0
	LD	G0,G3
	MUL	G0,G3
	PUSH	G0
	CALL	.f
	ADD	SP,#4
	LD	G1,.a
	ADD	G1,.b
	ADD	G0,G1
	ST	G0,.c
	LD	G0,G3
	ADD	G0,.c
	LD	G3,G0
	JMP	.L2
.L3
	LD	G0,#0
	POP	G3
	POP	FP
	RET
".
Proof. vm_compute. reflexivity. Qed.

Definition t130_src : list Z := codes "# 0 ""/repo/Test/c--/t130.cmm""
# 0 ""<built-in>""
# 0 ""<command-line>""
# 1 ""/repo/Test/c--/t130.cmm""





int x=0;

int x; int y;

struct X {int a,b;};

char f() {
  int i,j;
  X l;

  if ((i==j)==(x==y)) return chr(i);

  if (l==l) return chr(i);

  i=(j=i*2);

  for (i=0, j=0; i<10; i=i+1)
    j=j*2;
  for (i=j=0; i<10; i=i+1)
    j=j*2;

  return chr(i);
}
"%string.
Example t130_ic : compileText true false vm2ic t130_src = text "vmNam(0)
vmDwCns(0)
vmNam(1)
vmWs(1)
vmNam(5)
vmEntry(3)
vmLdLoc(1)
vmLdLoc(2)
vmEq()
vmLdGlb(0)
vmLdGlb(1)
vmEq()
vmEq()
vmJF(1)
vmLdLoc(1)
vmChr()
vmMReg()
vmJmp(2)
vmLab(1)
vmLdLoc(3)
vmLdLoc(3)
vmEq()
vmJF(3)
vmLdLoc(1)
vmChr()
vmMReg()
vmJmp(2)
vmLab(3)
vmLdLoc(1)
vmLdCns(2)
vmMul()
vmStLoc(2)
vmStLoc(1)
vmPop()
vmLdCns(0)
vmStLoc(1)
vmPop()
vmLdCns(0)
vmStLoc(2)
vmPop()
vmLab(4)
vmLdLoc(1)
vmLdCns(10)
vmLt()
vmJF(5)
vmLdLoc(2)
vmLdCns(2)
vmMul()
vmStLoc(2)
vmPop()
vmLdLoc(1)
vmLdCns(1)
vmAdd()
vmStLoc(1)
vmPop()
vmJmp(4)
vmLab(5)
vmLdCns(0)
vmStLoc(2)
vmStLoc(1)
vmPop()
vmLab(6)
vmLdLoc(1)
vmLdCns(10)
vmLt()
vmJF(7)
vmLdLoc(2)
vmLdCns(2)
vmMul()
vmStLoc(2)
vmPop()
vmLdLoc(1)
vmLdCns(1)
vmAdd()
vmStLoc(1)
vmPop()
vmJmp(6)
vmLab(7)
vmLdLoc(1)
vmChr()
vmMReg()
vmLab(2)
vmRet()
".
Proof. vm_compute. reflexivity. Qed.
Example t130_vm : compileText true false vm2vm t130_src = text ".x
	DW	0
.y
	WS	1
.f
	ENTRY	3
	LDL	1
	LDL	2
	EQ
	LDG	.x
	LDG	.y
	EQ
	EQ
	JF	.L1
	LDL	1
	CHR
	MREG
	JMP	.L2
.L1
	LDL	3
	LDL	3
	EQ
	JF	.L3
	LDL	1
	CHR
	MREG
	JMP	.L2
.L3
	LDL	1
	LDC	2
	MUL
	STL	2
	STL	1
	POP
	LDC	0
	STL	1
	POP
	LDC	0
	STL	2
	POP
.L4
	LDL	1
	LDC	10
	LT
	JF	.L5
	LDL	2
	LDC	2
	MUL
	STL	2
	POP
	LDL	1
	LDC	1
	ADD
	STL	1
	POP
	JMP	.L4
.L5
	LDC	0
	STL	2
	STL	1
	POP
.L6
	LDL	1
	LDC	10
	LT
	JF	.L7
	LDL	2
	LDC	2
	MUL
	STL	2
	POP
	LDL	1
	LDC	1
	ADD
	STL	1
	POP
	JMP	.L6
.L7
	LDL	1
	CHR
	MREG
.L2
	RET
".
Proof. vm_compute. reflexivity. Qed.
Example t130_tac : compileText true false vm2tac t130_src = text ".x	DW	0
.y	WS	1
.f	PUSH	FP
	LD	FP,SP
	PUSH	G3
	PUSH	G4
	PUSH	G5
	CALL	__stkChk
	CMP	G3,G4
	LD	G0,#1
	JZ	.T0
	LD	G0,#0
.T0
	LD	G1,.x
	CMP	G1,.y
	LD	G1,#1
	JZ	.T1
	LD	G1,#0
.T1
	CMP	G0,G1
	JNZ	.L1
	LD	G0,G3
	AND	G0,#255
	JMP	.L2
.L1
	CMP	G5,G5
	JNZ	.L3
	LD	G0,G3
	AND	G0,#255
	JMP	.L2
.L3
	LD	G0,G3
	SHLA	G0,#1
	LD	G4,G0
	LD	G3,G0
	LD	G3,#0
	LD	G4,#0
.L4
	CMP	G3,#10
	JGE	.L5
	LD	G0,G4
	SHLA	G0,#1
	LD	G4,G0
	LD	G0,G3
	ADD	G0,#1
	LD	G3,G0
	JMP	.L4
.L5
	LD	G4,#0
	LD	G3,G4
.L6
	CMP	G3,#10
	JGE	.L7
	LD	G0,G4
	SHLA	G0,#1
	LD	G4,G0
	LD	G0,G3
	ADD	G0,#1
	LD	G3,G0
	JMP	.L6
.L7
	LD	G0,G3
	AND	G0,#255
.L2
	POP	G5
	POP	G4
	POP	G3
	POP	FP
	RET
".
Proof. vm_compute. reflexivity. Qed.

Definition t140_src : list Z := codes "# 0 ""/repo/Test/c--/t140.cmm""
# 0 ""<built-in>""
# 0 ""<command-line>""
# 1 ""/repo/Test/c--/t140.cmm""




# 1 ""/repo/include/stdio.hmm"" 1
# 46 ""/repo/include/stdio.hmm""
struct FILE {
  int fd;
  int mode;
  char[] buf;
  int size;
  int len;
  int cnt;
  boolean tty;
  boolean eof;
  boolean err;
  int slot;
};

public void _stdioInit();
public void _flushAll();
public void _perror(char[] msg, int err);

struct Dir {
    char[] name;
    int attr;
    int clst;
    int lenH, lenL;
};
public int readDir(int fd, Dir dir);



public FILE stdin;
public FILE stdout;
public FILE stderr;

public boolean feof(FILE stream);
public boolean ferror(FILE stream);
public boolean fflush(FILE stream);
public boolean fseek(FILE stream, int h, int l);
public boolean fsize(char[] path, int[] size);

public FILE fopen(char[] name, char[] mode);
public boolean fclose(FILE stream);

public boolean fputc(char c, FILE stream);
public boolean putchar(char c);
public boolean fputs(char[] s, FILE stream);
public boolean puts(char[] s);

public char fgetc(FILE stream);
public char getchar();
public char[] fgets(char[] s, int n, FILE stream);
public void perror(char[] s);

public int fprintf(FILE stream, char[] format, ...);
public int printf(char[] format, ...);
# 6 ""/repo/Test/c--/t140.cmm"" 2

public int main() {
       printf(""/* */"");
       printf(""//"");
       printf(
         ""/*"");
       printf(


         ""/*"");
       printf(""abcde\""fghi"");
       printf(""\"""");
       putchar('\n');
       putchar('\'');
       return 0;
}
"%string.
Example t140_ic : compileText true false vm2ic t140_src = text "vmNam(25)
vmWs(1)
vmNam(26)
vmWs(1)
vmNam(27)
vmWs(1)
vmLab(1)
vmStr(""/* */"")
vmLab(2)
vmStr(""//"")
vmLab(3)
vmStr(""/*"")
vmLab(4)
vmStr(""/*"")
vmLab(5)
vmStr(""abcde\""fghi"")
vmLab(6)
vmStr(""\"""")
vmNam(72)
vmEntry(0)
vmLdLab(1)
vmArg()
vmCallF(1, 69)
vmPop()
vmLdLab(2)
vmArg()
vmCallF(1, 69)
vmPop()
vmLdLab(3)
vmArg()
vmCallF(1, 69)
vmPop()
vmLdLab(4)
vmArg()
vmCallF(1, 69)
vmPop()
vmLdLab(5)
vmArg()
vmCallF(1, 69)
vmPop()
vmLdLab(6)
vmArg()
vmCallF(1, 69)
vmPop()
vmLdCns(10)
vmArg()
vmCallF(1, 49)
vmPop()
vmLdCns(39)
vmArg()
vmCallF(1, 49)
vmPop()
vmLdCns(0)
vmMReg()
vmRet()
".
Proof. vm_compute. reflexivity. Qed.
Example t140_vm : compileText true false vm2vm t140_src = text "_stdin
	WS	1
_stdout
	WS	1
_stderr
	WS	1
.L1
	STRING	""/* */""
.L2
	STRING	""//""
.L3
	STRING	""/*""
.L4
	STRING	""/*""
.L5
	STRING	""abcde\""fghi""
.L6
	STRING	""\""""
_main
	ENTRY	0
	LDC	.L1
	ARG
	CALLF	1,_printf
	POP
	LDC	.L2
	ARG
	CALLF	1,_printf
	POP
	LDC	.L3
	ARG
	CALLF	1,_printf
	POP
	LDC	.L4
	ARG
	CALLF	1,_printf
	POP
	LDC	.L5
	ARG
	CALLF	1,_printf
	POP
	LDC	.L6
	ARG
	CALLF	1,_printf
	POP
	LDC	10
	ARG
	CALLF	1,_putchar
	POP
	LDC	39
	ARG
	CALLF	1,_putchar
	POP
	LDC	0
	MREG
	RET
".
Proof. vm_compute. reflexivity. Qed.
Example t140_tac : compileText true false vm2tac t140_src = text "_stdin	WS	1
_stdout	WS	1
_stderr	WS	1
.L1	STRING	""/* */""
.L2	STRING	""//""
.L3	STRING	""/*""
.L4	STRING	""/*""
.L5	STRING	""abcde\""fghi""
.L6	STRING	""\""""
_main	PUSH	FP
	LD	FP,SP
	CALL	__stkChk
	LD	G0,#.L1
	PUSH	G0
	CALL	_printf
	ADD	SP,#2
	LD	G0,#.L2
	PUSH	G0
	CALL	_printf
	ADD	SP,#2
	LD	G0,#.L3
	PUSH	G0
	CALL	_printf
	ADD	SP,#2
	LD	G0,#.L4
	PUSH	G0
	CALL	_printf
	ADD	SP,#2
	LD	G0,#.L5
	PUSH	G0
	CALL	_printf
	ADD	SP,#2
	LD	G0,#.L6
	PUSH	G0
	CALL	_printf
	ADD	SP,#2
	LD	G0,#10
	PUSH	G0
	CALL	_putchar
	ADD	SP,#2
	LD	G0,#39
	PUSH	G0
	CALL	_putchar
	ADD	SP,#2
	LD	G0,#0
	POP	FP
	RET
".
Proof. vm_compute. reflexivity. Qed.

Definition t150_src : list Z := codes "# 0 ""/repo/Test/c--/t150.cmm""
# 0 ""<built-in>""
# 0 ""<command-line>""
# 1 ""/repo/Test/c--/t150.cmm""





struct Node { Node next, prev; int val; };

Node n = { null, null, 10 };
Node m;

public int main() {
 n.next = n;
 n.prev = n;
 m = n.next.prev;

 Node l = m;
 l.next = l.prev.prev;
 int x = l.val;
 return 0;
}
"%string.
Example t150_ic : compileText true false vm2ic t150_src = text "vmLab(1)
vmDwCns(0)
vmDwCns(0)
vmDwCns(10)
vmNam(4)
vmDwLab(1)
vmNam(5)
vmWs(1)
vmNam(6)
vmEntry(2)
vmLdGlb(4)
vmLdGlb(4)
vmLdCns(0)
vmStWrd()
vmPop()
vmLdGlb(4)
vmLdGlb(4)
vmLdCns(1)
vmStWrd()
vmPop()
vmLdGlb(4)
vmLdCns(0)
vmLdWrd()
vmLdCns(1)
vmLdWrd()
vmStGlb(5)
vmPop()
vmLdGlb(5)
vmStLoc(1)
vmPop()
vmLdLoc(1)
vmLdCns(1)
vmLdWrd()
vmLdCns(1)
vmLdWrd()
vmLdLoc(1)
vmLdCns(0)
vmStWrd()
vmPop()
vmLdLoc(1)
vmLdCns(2)
vmLdWrd()
vmStLoc(2)
vmPop()
vmLdCns(0)
vmMReg()
vmRet()
".
Proof. vm_compute. reflexivity. Qed.
Example t150_vm : compileText true false vm2vm t150_src = text ".L1
	DW	0
	DW	0
	DW	10
.n
	DW	.L1
.m
	WS	1
_main
	ENTRY	2
	LDG	.n
	LDG	.n
	LDC	0
	STW
	POP
	LDG	.n
	LDG	.n
	LDC	1
	STW
	POP
	LDG	.n
	LDC	0
	LDW
	LDC	1
	LDW
	STG	.m
	POP
	LDG	.m
	STL	1
	POP
	LDL	1
	LDC	1
	LDW
	LDC	1
	LDW
	LDL	1
	LDC	0
	STW
	POP
	LDL	1
	LDC	2
	LDW
	STL	2
	POP
	LDC	0
	MREG
	RET
".
Proof. vm_compute. reflexivity. Qed.
Example t150_tac : compileText true false vm2tac t150_src = text ".L1	DW	0
	DW	0
	DW	10
.n	DW	.L1
.m	WS	1
_main	PUSH	FP
	LD	FP,SP
	PUSH	G3
	PUSH	G4
	CALL	__stkChk
	LD	G0,.n
	LD	G1,.n
	ST	G1,0,G0
	LD	G0,.n
	ADDS	G0,#1
	LD	G1,.n
	ST	G1,0,G0
	LD	G0,.n
	LD	G0,0,G0
	ADDS	G0,#1
	LD	G0,0,G0
	ST	G0,.m
	LD	G3,.m
	LD	G0,G3
	ADDS	G0,#1
	LD	G0,0,G0
	ADDS	G0,#1
	LD	G0,0,G0
	ST	G0,0,G3
	LD	G0,G3
	ADDS	G0,#2
	LD	G4,0,G0
	LD	G0,#0
	POP	G4
	POP	G3
	POP	FP
	RET
".
Proof. vm_compute. reflexivity. Qed.

Definition t160_src : list Z := codes "# 0 ""/repo/Test/c--/t160.cmm""
# 0 ""<built-in>""
# 0 ""<command-line>""
# 1 ""/repo/Test/c--/t160.cmm""







# 1 ""/repo/include/stdlib.hmm"" 1
# 39 ""/repo/include/stdlib.hmm""
public void[] _alcAddr;
public void _stdlibInit();

public void[] malloc(int s);
public int[] iMalloc(int n);
public char[] cMalloc(int n);
public boolean[] bMalloc(int n);
public void[][] rMalloc(int n);
public void[] calloc(int c, int s);
public void free(void[] m);

public int atoi(char[] s);
public int htoi(char[] s);
public int rand();
public void srand(int seed);
public void exit(int status);


public char[][] environ;

public char[] getEnv(char[] name);
public boolean putEnv(char[] string);
public boolean setEnv(char[] name, char[] value, boolean overwrite);
public boolean unsetEnv(char[] name);

public boolean absPath(char[] path, char[] buf, int bufSiz);
public char[] getWd();
public boolean chDir(char[] pathname);
# 9 ""/repo/Test/c--/t160.cmm"" 2

int a;
char b = '0';
int d, e;
int f = 10, g = 20;
int[] h, i = { 1000,2000,3000 }, j;
int[][] k, l = { { 4000,5000},{6000,7000,8000} };
char[] n = ""aaaa"";
char[][] o = {""abc"",{'a','b','\0'}};
int[][][] p = { array(10), { {6},{7,8},{9} } };
int[][][][][] pq = { { {{{6},{7,8},{9}} },null }, null };

void f0() {
  int n;
  n = 1;
  int[][][][] m;
  char[] a = ""abc"";
  h[1] = 1;
  m[0][1][1][3]=2;
  ;

}

char[][][] q = { {""ab"",""cd""}, array(3)};

int[][][] r = { { {1,2},{3,4,5} }, { {6},{7,8},{9} } };
char[] s = array(3);
char[][] t = array(3,2);
char[][][] u = array(2,2,2);
char[][][] v = { {""ab"",""cd""}, array(2,2)};

int f1(boolean x, int y) {
  int a = 1,b,c;
  int[] q = malloc(sizeof(int)*10);
  if (q[0]==0) q[1]=1; else q[1]=0;
  if (q[0]==1) q[1]=1;
  if (a==1) a = 2;
  if (a!=0) a = 3; else a = 4;
  if (a!=1) {
   a = 5;
   b = 6;
  } else {
   a = 7;
   b = 8;
  }
  while (a==0) {
    int d = 1;
    d = d + 1;
  }
  for (a=0;a<3;a=a+1)
    q[a]=a;

  while (a==2||b==2||c==2) {
    if (c==1) continue;
    while (b==2) {
      if (c==3) break;
    }
    if (c==4) break;
  }
  free(q);
  return c;
}

char[][] ab = {{chr(1),chr(2)},{chr(3),chr(4)}};

char[] f2() {
  int a = 1;
  int b = 2;
  f1(a==1&&b==1, b);
  return ab[1];
}

void f3() {
 if (true) {} else {}
 for (;;) {}
}

void f4() {
  for (int i=0, j=1; i<10; i=i+1) {
    i=(j+1)*2;
  }
}

int[] x = array(5);
int[][] y = array(5,5);
void f5(int a, int b, char[] s) {
  x[i[x[1]]+1] = i[a] = i[5] = 1;
  b=y[1][a*b*ord(f2()[2])*x[3]];
}

struct X {
  int a, b;
  X[] c;
};

struct Y {
  int a, b;
  char[] c;
};

X z1;
X z2 = {1,2,null};
X[] z3 = {{1,2,null},{3,4,null}};
Y z4 = {1,2,""ab""};
Y z5 = null;
Y[] z6 = { null, {1,2,""abc""}, null};
Y[] z7 = array(3);
Y[][] z8 = array(2,3);
Y[][] z9 = array(2);

void f6() {
  z1 = z2;
  z1 = malloc(sizeof(X));
  free(z1);
  z1 = z3[1+2];
  a = z3[1+2].a;
  z1 = z3[1+2].c[1];
  a = z2.c[1].c[1].a;
  z8[1][1] = malloc(sizeof(Y));
  z8[1][1].a = 1;
  free(z8);
}

public X f7(int a);
public X[] f8(X x);
public X[] f9(X[] x);

public void f10(char[] s , ...);

void f11(int a, ...) {
  int b;
  z1 = f7(1);
  a = f7(1).b;
  z1 = f8(z1)[1];
  z1 = f9(z3)[1];
  z1 = null;
  f10(""aaa"");
  f10(""aaa"",2,""bbb"");
  f11(b,a,b,a,b);
  z6[1]=z6[2]=z6[3];
  (y[1]=y[2])[1]=1;
  for (int i=0,j=0; i==j; i=i+1)
    j=j+1;
}

char[] ss = ""aaa"";



void f12() {
  int[] x1 = malloc(sizeof(int)*4);
  free(x1);
  boolean b = true || true;
}

void f13() {
  void[] x;
  int a = 012;
  int b = 0x12;
  int c = ord('c');
  x = ss;
  z1 = x;
}
"%string.
Example t160_ic : compileText true false vm2ic t160_src = text "vmNam(0)
vmWs(1)
vmNam(26)
vmWs(1)
vmNam(44)
vmWs(1)
vmNam(45)
vmDwCns(48)
vmNam(46)
vmWs(1)
vmNam(47)
vmWs(1)
vmNam(48)
vmDwCns(10)
vmNam(49)
vmDwCns(20)
vmNam(50)
vmWs(1)
vmLab(1)
vmDwCns(1000)
vmDwCns(2000)
vmDwCns(3000)
vmNam(51)
vmDwLab(1)
vmNam(52)
vmWs(1)
vmNam(53)
vmWs(1)
vmLab(2)
vmDwCns(4000)
vmDwCns(5000)
vmLab(3)
vmDwCns(6000)
vmDwCns(7000)
vmDwCns(8000)
vmLab(4)
vmDwLab(2)
vmDwLab(3)
vmNam(54)
vmDwLab(4)
vmLab(5)
vmStr(""aaaa"")
vmNam(55)
vmDwLab(5)
vmLab(6)
vmStr(""abc"")
vmLab(7)
vmDbCns(97)
vmDbCns(98)
vmDbCns(0)
vmLab(8)
vmDwLab(6)
vmDwLab(7)
vmNam(56)
vmDwLab(8)
vmLab(9)
vmDwCns(6)
vmLab(10)
vmDwCns(7)
vmDwCns(8)
vmLab(11)
vmDwCns(9)
vmLab(12)
vmWs(10)
vmLab(13)
vmDwLab(9)
vmDwLab(10)
vmDwLab(11)
vmLab(14)
vmDwLab(12)
vmDwLab(13)
vmNam(57)
vmDwLab(14)
vmLab(15)
vmDwCns(6)
vmLab(16)
vmDwCns(7)
vmDwCns(8)
vmLab(17)
vmDwCns(9)
vmLab(18)
vmDwLab(15)
vmDwLab(16)
vmDwLab(17)
vmLab(19)
vmDwLab(18)
vmLab(20)
vmDwLab(19)
vmDwCns(0)
vmLab(21)
vmDwLab(20)
vmDwCns(0)
vmNam(58)
vmDwLab(21)
vmLab(22)
vmStr(""abc"")
vmNam(59)
vmEntry(3)
vmLdCns(1)
vmStLoc(1)
vmPop()
vmLdLab(22)
vmStLoc(3)
vmPop()
vmLdCns(1)
vmLdGlb(50)
vmLdCns(1)
vmStWrd()
vmPop()
vmLdCns(2)
vmLdLoc(2)
vmLdCns(0)
vmLdWrd()
vmLdCns(1)
vmLdWrd()
vmLdCns(1)
vmLdWrd()
vmLdCns(3)
vmStWrd()
vmPop()
vmRet()
vmLab(23)
vmStr(""ab"")
vmLab(24)
vmStr(""cd"")
vmLab(25)
vmDwLab(23)
vmDwLab(24)
vmLab(26)
vmWs(3)
vmLab(27)
vmDwLab(25)
vmDwLab(26)
vmNam(60)
vmDwLab(27)
vmLab(28)
vmDwCns(1)
vmDwCns(2)
vmLab(29)
vmDwCns(3)
vmDwCns(4)
vmDwCns(5)
vmLab(30)
vmDwCns(6)
vmLab(31)
vmDwCns(7)
vmDwCns(8)
vmLab(32)
vmDwCns(9)
vmLab(33)
vmDwLab(28)
vmDwLab(29)
vmLab(34)
vmDwLab(30)
vmDwLab(31)
vmDwLab(32)
vmLab(35)
vmDwLab(33)
vmDwLab(34)
vmNam(61)
vmDwLab(35)
vmLab(36)
vmBs(3)
vmNam(62)
vmDwLab(36)
vmLab(37)
vmBs(2)
vmLab(38)
vmBs(2)
vmLab(39)
vmBs(2)
vmLab(40)
vmDwLab(37)
vmDwLab(38)
vmDwLab(39)
vmNam(63)
vmDwLab(40)
vmLab(41)
vmBs(2)
vmLab(42)
vmBs(2)
vmLab(43)
vmBs(2)
vmLab(44)
vmBs(2)
vmLab(45)
vmDwLab(41)
vmDwLab(42)
vmLab(46)
vmDwLab(43)
vmDwLab(44)
vmLab(47)
vmDwLab(45)
vmDwLab(46)
vmNam(64)
vmDwLab(47)
vmLab(48)
vmStr(""ab"")
vmLab(49)
vmStr(""cd"")
vmLab(50)
vmDwLab(48)
vmDwLab(49)
vmLab(51)
vmBs(2)
vmLab(52)
vmBs(2)
vmLab(53)
vmDwLab(51)
vmDwLab(52)
vmLab(54)
vmDwLab(50)
vmDwLab(53)
vmNam(65)
vmDwLab(54)
vmNam(66)
vmEntry(5)
vmLdCns(1)
vmStLoc(1)
vmPop()
vmLdCns(20)
vmArg()
vmCallF(1, 2)
vmStLoc(4)
vmPop()
vmLdLoc(4)
vmLdCns(0)
vmLdWrd()
vmLdCns(0)
vmEq()
vmJF(55)
vmLdCns(1)
vmLdLoc(4)
vmLdCns(1)
vmStWrd()
vmPop()
vmJmp(56)
vmLab(55)
vmLdCns(0)
vmLdLoc(4)
vmLdCns(1)
vmStWrd()
vmPop()
vmLab(56)
vmLdLoc(4)
vmLdCns(0)
vmLdWrd()
vmLdCns(1)
vmEq()
vmJF(57)
vmLdCns(1)
vmLdLoc(4)
vmLdCns(1)
vmStWrd()
vmPop()
vmLab(57)
vmLdLoc(1)
vmLdCns(1)
vmEq()
vmJF(58)
vmLdCns(2)
vmStLoc(1)
vmPop()
vmLab(58)
vmLdLoc(1)
vmLdCns(0)
vmNe()
vmJF(59)
vmLdCns(3)
vmStLoc(1)
vmPop()
vmJmp(60)
vmLab(59)
vmLdCns(4)
vmStLoc(1)
vmPop()
vmLab(60)
vmLdLoc(1)
vmLdCns(1)
vmNe()
vmJF(61)
vmLdCns(5)
vmStLoc(1)
vmPop()
vmLdCns(6)
vmStLoc(2)
vmPop()
vmJmp(62)
vmLab(61)
vmLdCns(7)
vmStLoc(1)
vmPop()
vmLdCns(8)
vmStLoc(2)
vmPop()
vmLab(62)
vmLab(63)
vmLdLoc(1)
vmLdCns(0)
vmEq()
vmJF(64)
vmLdCns(1)
vmStLoc(5)
vmPop()
vmLdLoc(5)
vmLdCns(1)
vmAdd()
vmStLoc(5)
vmPop()
vmJmp(63)
vmLab(64)
vmLdCns(0)
vmStLoc(1)
vmPop()
vmLab(65)
vmLdLoc(1)
vmLdCns(3)
vmLt()
vmJF(66)
vmLdLoc(1)
vmLdLoc(4)
vmLdLoc(1)
vmStWrd()
vmPop()
vmLdLoc(1)
vmLdCns(1)
vmAdd()
vmStLoc(1)
vmPop()
vmJmp(65)
vmLab(66)
vmLab(67)
vmLdLoc(1)
vmLdCns(2)
vmEq()
vmJT(68)
vmLdLoc(2)
vmLdCns(2)
vmEq()
vmJT(68)
vmLdLoc(3)
vmLdCns(2)
vmEq()
vmJF(69)
vmLab(68)
vmLdLoc(3)
vmLdCns(1)
vmEq()
vmJF(70)
vmJmp(67)
vmLab(70)
vmLab(71)
vmLdLoc(2)
vmLdCns(2)
vmEq()
vmJF(72)
vmLdLoc(3)
vmLdCns(3)
vmEq()
vmJF(73)
vmJmp(72)
vmLab(73)
vmJmp(71)
vmLab(72)
vmLdLoc(3)
vmLdCns(4)
vmEq()
vmJF(74)
vmJmp(69)
vmLab(74)
vmJmp(67)
vmLab(69)
vmLdLoc(4)
vmArg()
vmCallP(1, 15)
vmLdLoc(3)
vmMReg()
vmRet()
vmLab(75)
vmDbCns(1)
vmDbCns(2)
vmLab(76)
vmDbCns(3)
vmDbCns(4)
vmLab(77)
vmDwLab(75)
vmDwLab(76)
vmNam(69)
vmDwLab(77)
vmNam(70)
vmEntry(2)
vmLdCns(1)
vmStLoc(1)
vmPop()
vmLdCns(2)
vmStLoc(2)
vmPop()
vmLdLoc(2)
vmArg()
vmLdLoc(1)
vmLdCns(1)
vmEq()
vmJF(79)
vmLdLoc(2)
vmLdCns(1)
vmEq()
vmBoolAND(79, -1, 78)
vmArg()
vmCallF(2, 66)
vmPop()
vmLdGlb(69)
vmLdCns(1)
vmLdWrd()
vmMReg()
vmRet()
vmNam(71)
vmEntry(0)
vmLab(80)
vmJmp(80)
vmRet()
vmNam(72)
vmEntry(2)
vmLdCns(0)
vmStLoc(1)
vmPop()
vmLdCns(1)
vmStLoc(2)
vmPop()
vmLab(81)
vmLdLoc(1)
vmLdCns(10)
vmLt()
vmJF(82)
vmLdLoc(2)
vmLdCns(1)
vmAdd()
vmLdCns(2)
vmMul()
vmStLoc(1)
vmPop()
vmLdLoc(1)
vmLdCns(1)
vmAdd()
vmStLoc(1)
vmPop()
vmJmp(81)
vmLab(82)
vmRet()
vmLab(83)
vmWs(5)
vmNam(73)
vmDwLab(83)
vmLab(84)
vmWs(5)
vmLab(85)
vmWs(5)
vmLab(86)
vmWs(5)
vmLab(87)
vmWs(5)
vmLab(88)
vmWs(5)
vmLab(89)
vmDwLab(84)
vmDwLab(85)
vmDwLab(86)
vmDwLab(87)
vmDwLab(88)
vmNam(74)
vmDwLab(89)
vmNam(75)
vmEntry(0)
vmLdCns(1)
vmLdGlb(51)
vmLdCns(5)
vmStWrd()
vmLdGlb(51)
vmLdPrm(1)
vmStWrd()
vmLdGlb(73)
vmLdGlb(51)
vmLdGlb(73)
vmLdCns(1)
vmLdWrd()
vmLdWrd()
vmLdCns(1)
vmAdd()
vmStWrd()
vmPop()
vmLdGlb(74)
vmLdCns(1)
vmLdWrd()
vmCallF(0, 70)
vmLdCns(2)
vmLdByt()
vmLdPrm(1)
vmLdPrm(2)
vmMul()
vmMul()
vmLdGlb(73)
vmLdCns(3)
vmLdWrd()
vmMul()
vmLdWrd()
vmStPrm(2)
vmPop()
vmRet()
vmNam(87)
vmWs(1)
vmLab(90)
vmDwCns(1)
vmDwCns(2)
vmDwCns(0)
vmNam(88)
vmDwLab(90)
vmLab(91)
vmDwCns(1)
vmDwCns(2)
vmDwCns(0)
vmLab(92)
vmDwCns(3)
vmDwCns(4)
vmDwCns(0)
vmLab(93)
vmDwLab(91)
vmDwLab(92)
vmNam(89)
vmDwLab(93)
vmLab(94)
vmStr(""ab"")
vmLab(95)
vmDwCns(1)
vmDwCns(2)
vmDwLab(94)
vmNam(90)
vmDwLab(95)
vmNam(91)
vmDwCns(0)
vmLab(96)
vmStr(""abc"")
vmLab(97)
vmDwCns(1)
vmDwCns(2)
vmDwLab(96)
vmLab(98)
vmDwCns(0)
vmDwLab(97)
vmDwCns(0)
vmNam(92)
vmDwLab(98)
vmLab(99)
vmWs(3)
vmNam(93)
vmDwLab(99)
vmLab(100)
vmWs(3)
vmLab(101)
vmWs(3)
vmLab(102)
vmDwLab(100)
vmDwLab(101)
vmNam(94)
vmDwLab(102)
vmLab(103)
vmWs(2)
vmNam(95)
vmDwLab(103)
vmNam(96)
vmEntry(0)
vmLdGlb(88)
vmStGlb(87)
vmPop()
vmLdCns(6)
vmArg()
vmCallF(1, 2)
vmStGlb(87)
vmPop()
vmLdGlb(87)
vmArg()
vmCallP(1, 15)
vmLdGlb(89)
vmLdCns(3)
vmLdWrd()
vmStGlb(87)
vmPop()
vmLdGlb(89)
vmLdCns(3)
vmLdWrd()
vmLdCns(0)
vmLdWrd()
vmStGlb(44)
vmPop()
vmLdGlb(89)
vmLdCns(3)
vmLdWrd()
vmLdCns(2)
vmLdWrd()
vmLdCns(1)
vmLdWrd()
vmStGlb(87)
vmPop()
vmLdGlb(88)
vmLdCns(2)
vmLdWrd()
vmLdCns(1)
vmLdWrd()
vmLdCns(2)
vmLdWrd()
vmLdCns(1)
vmLdWrd()
vmLdCns(0)
vmLdWrd()
vmStGlb(44)
vmPop()
vmLdCns(6)
vmArg()
vmCallF(1, 2)
vmLdGlb(94)
vmLdCns(1)
vmLdWrd()
vmLdCns(1)
vmStWrd()
vmPop()
vmLdCns(1)
vmLdGlb(94)
vmLdCns(1)
vmLdWrd()
vmLdCns(1)
vmLdWrd()
vmLdCns(0)
vmStWrd()
vmPop()
vmLdGlb(94)
vmArg()
vmCallP(1, 15)
vmRet()
vmLab(104)
vmStr(""aaa"")
vmLab(105)
vmStr(""aaa"")
vmLab(106)
vmStr(""bbb"")
vmNam(106)
vmEntry(3)
vmLdCns(1)
vmArg()
vmCallF(1, 97)
vmStGlb(87)
vmPop()
vmLdCns(1)
vmArg()
vmCallF(1, 97)
vmLdCns(1)
vmLdWrd()
vmStPrm(1)
vmPop()
vmLdGlb(87)
vmArg()
vmCallF(1, 99)
vmLdCns(1)
vmLdWrd()
vmStGlb(87)
vmPop()
vmLdGlb(89)
vmArg()
vmCallF(1, 101)
vmLdCns(1)
vmLdWrd()
vmStGlb(87)
vmPop()
vmLdCns(0)
vmStGlb(87)
vmPop()
vmLdLab(104)
vmArg()
vmCallP(1, 103)
vmLdLab(106)
vmArg()
vmLdCns(2)
vmArg()
vmLdLab(105)
vmArg()
vmCallP(3, 103)
vmLdLoc(1)
vmArg()
vmLdPrm(1)
vmArg()
vmLdLoc(1)
vmArg()
vmLdPrm(1)
vmArg()
vmLdLoc(1)
vmArg()
vmCallP(5, 106)
vmLdGlb(92)
vmLdCns(3)
vmLdWrd()
vmLdGlb(92)
vmLdCns(2)
vmStWrd()
vmLdGlb(92)
vmLdCns(1)
vmStWrd()
vmPop()
vmLdCns(1)
vmLdGlb(74)
vmLdCns(2)
vmLdWrd()
vmLdGlb(74)
vmLdCns(1)
vmStWrd()
vmLdCns(1)
vmStWrd()
vmPop()
vmLdCns(0)
vmStLoc(2)
vmPop()
vmLdCns(0)
vmStLoc(3)
vmPop()
vmLab(107)
vmLdLoc(2)
vmLdLoc(3)
vmEq()
vmJF(108)
vmLdLoc(3)
vmLdCns(1)
vmAdd()
vmStLoc(3)
vmPop()
vmLdLoc(2)
vmLdCns(1)
vmAdd()
vmStLoc(2)
vmPop()
vmJmp(107)
vmLab(108)
vmRet()
vmLab(109)
vmStr(""aaa"")
vmNam(109)
vmDwLab(109)
vmNam(110)
vmEntry(2)
vmLdCns(8)
vmArg()
vmCallF(1, 2)
vmStLoc(1)
vmPop()
vmLdLoc(1)
vmArg()
vmCallP(1, 15)
vmLdCns(1)
vmStLoc(2)
vmPop()
vmRet()
vmNam(111)
vmEntry(4)
vmLdCns(10)
vmStLoc(2)
vmPop()
vmLdCns(18)
vmStLoc(3)
vmPop()
vmLdCns(99)
vmStLoc(4)
vmPop()
vmLdGlb(109)
vmStLoc(1)
vmPop()
vmLdLoc(1)
vmStGlb(87)
vmPop()
vmRet()
".
Proof. vm_compute. reflexivity. Qed.
Example t160_vm : compileText true false vm2vm t160_src = text "__alcAddr
	WS	1
_environ
	WS	1
.a
	WS	1
.b
	DW	48
.d
	WS	1
.e
	WS	1
.f
	DW	10
.g
	DW	20
.h
	WS	1
.L1
	DW	1000
	DW	2000
	DW	3000
.i
	DW	.L1
.j
	WS	1
.k
	WS	1
.L2
	DW	4000
	DW	5000
.L3
	DW	6000
	DW	7000
	DW	8000
.L4
	DW	.L2
	DW	.L3
.l
	DW	.L4
.L5
	STRING	""aaaa""
.n
	DW	.L5
.L6
	STRING	""abc""
.L7
	DB	97
	DB	98
	DB	0
.L8
	DW	.L6
	DW	.L7
.o
	DW	.L8
.L9
	DW	6
.L10
	DW	7
	DW	8
.L11
	DW	9
.L12
	WS	10
.L13
	DW	.L9
	DW	.L10
	DW	.L11
.L14
	DW	.L12
	DW	.L13
.p
	DW	.L14
.L15
	DW	6
.L16
	DW	7
	DW	8
.L17
	DW	9
.L18
	DW	.L15
	DW	.L16
	DW	.L17
.L19
	DW	.L18
.L20
	DW	.L19
	DW	0
.L21
	DW	.L20
	DW	0
.pq
	DW	.L21
.L22
	STRING	""abc""
.f0
	ENTRY	3
	LDC	1
	STL	1
	POP
	LDC	.L22
	STL	3
	POP
	LDC	1
	LDG	.h
	LDC	1
	STW
	POP
	LDC	2
	LDL	2
	LDC	0
	LDW
	LDC	1
	LDW
	LDC	1
	LDW
	LDC	3
	STW
	POP
	RET
.L23
	STRING	""ab""
.L24
	STRING	""cd""
.L25
	DW	.L23
	DW	.L24
.L26
	WS	3
.L27
	DW	.L25
	DW	.L26
.q
	DW	.L27
.L28
	DW	1
	DW	2
.L29
	DW	3
	DW	4
	DW	5
.L30
	DW	6
.L31
	DW	7
	DW	8
.L32
	DW	9
.L33
	DW	.L28
	DW	.L29
.L34
	DW	.L30
	DW	.L31
	DW	.L32
.L35
	DW	.L33
	DW	.L34
.r
	DW	.L35
.L36
	BS	3
.s
	DW	.L36
.L37
	BS	2
.L38
	BS	2
.L39
	BS	2
.L40
	DW	.L37
	DW	.L38
	DW	.L39
.t
	DW	.L40
.L41
	BS	2
.L42
	BS	2
.L43
	BS	2
.L44
	BS	2
.L45
	DW	.L41
	DW	.L42
.L46
	DW	.L43
	DW	.L44
.L47
	DW	.L45
	DW	.L46
.u
	DW	.L47
.L48
	STRING	""ab""
.L49
	STRING	""cd""
.L50
	DW	.L48
	DW	.L49
.L51
	BS	2
.L52
	BS	2
.L53
	DW	.L51
	DW	.L52
.L54
	DW	.L50
	DW	.L53
.v
	DW	.L54
.f1
	ENTRY	5
	LDC	1
	STL	1
	POP
	LDC	20
	ARG
	CALLF	1,_malloc
	STL	4
	POP
	LDL	4
	LDC	0
	LDW
	LDC	0
	EQ
	JF	.L55
	LDC	1
	LDL	4
	LDC	1
	STW
	POP
	JMP	.L56
.L55
	LDC	0
	LDL	4
	LDC	1
	STW
	POP
.L56
	LDL	4
	LDC	0
	LDW
	LDC	1
	EQ
	JF	.L57
	LDC	1
	LDL	4
	LDC	1
	STW
	POP
.L57
	LDL	1
	LDC	1
	EQ
	JF	.L58
	LDC	2
	STL	1
	POP
.L58
	LDL	1
	LDC	0
	NE
	JF	.L59
	LDC	3
	STL	1
	POP
	JMP	.L60
.L59
	LDC	4
	STL	1
	POP
.L60
	LDL	1
	LDC	1
	NE
	JF	.L61
	LDC	5
	STL	1
	POP
	LDC	6
	STL	2
	POP
	JMP	.L62
.L61
	LDC	7
	STL	1
	POP
	LDC	8
	STL	2
	POP
.L62
.L63
	LDL	1
	LDC	0
	EQ
	JF	.L64
	LDC	1
	STL	5
	POP
	LDL	5
	LDC	1
	ADD
	STL	5
	POP
	JMP	.L63
.L64
	LDC	0
	STL	1
	POP
.L65
	LDL	1
	LDC	3
	LT
	JF	.L66
	LDL	1
	LDL	4
	LDL	1
	STW
	POP
	LDL	1
	LDC	1
	ADD
	STL	1
	POP
	JMP	.L65
.L66
.L67
	LDL	1
	LDC	2
	EQ
	JT	.L68
	LDL	2
	LDC	2
	EQ
	JT	.L68
	LDL	3
	LDC	2
	EQ
	JF	.L69
.L68
	LDL	3
	LDC	1
	EQ
	JF	.L70
	JMP	.L67
.L70
.L71
	LDL	2
	LDC	2
	EQ
	JF	.L72
	LDL	3
	LDC	3
	EQ
	JF	.L73
	JMP	.L72
.L73
	JMP	.L71
.L72
	LDL	3
	LDC	4
	EQ
	JF	.L74
	JMP	.L69
.L74
	JMP	.L67
.L69
	LDL	4
	ARG
	CALLP	1,_free
	LDL	3
	MREG
	RET
.L75
	DB	1
	DB	2
.L76
	DB	3
	DB	4
.L77
	DW	.L75
	DW	.L76
.ab
	DW	.L77
.f2
	ENTRY	2
	LDC	1
	STL	1
	POP
	LDC	2
	STL	2
	POP
	LDL	2
	ARG
	LDL	1
	LDC	1
	EQ
	JF	.L79
	LDL	2
	LDC	1
	EQ
; BOOLAND .L79,.L-1,.L78
	JMP	.L78
.L79
	LDC	0
.L78
; ----
	ARG
	CALLF	2,.f1
	POP
	LDG	.ab
	LDC	1
	LDW
	MREG
	RET
.f3
	ENTRY	0
.L80
	JMP	.L80
	RET
.f4
	ENTRY	2
	LDC	0
	STL	1
	POP
	LDC	1
	STL	2
	POP
.L81
	LDL	1
	LDC	10
	LT
	JF	.L82
	LDL	2
	LDC	1
	ADD
	LDC	2
	MUL
	STL	1
	POP
	LDL	1
	LDC	1
	ADD
	STL	1
	POP
	JMP	.L81
.L82
	RET
.L83
	WS	5
.x
	DW	.L83
.L84
	WS	5
.L85
	WS	5
.L86
	WS	5
.L87
	WS	5
.L88
	WS	5
.L89
	DW	.L84
	DW	.L85
	DW	.L86
	DW	.L87
	DW	.L88
.y
	DW	.L89
.f5
	ENTRY	0
	LDC	1
	LDG	.i
	LDC	5
	STW
	LDG	.i
	LDP	1
	STW
	LDG	.x
	LDG	.i
	LDG	.x
	LDC	1
	LDW
	LDW
	LDC	1
	ADD
	STW
	POP
	LDG	.y
	LDC	1
	LDW
	CALLF	0,.f2
	LDC	2
	LDB
	LDP	1
	LDP	2
	MUL
	MUL
	LDG	.x
	LDC	3
	LDW
	MUL
	LDW
	STP	2
	POP
	RET
.z1
	WS	1
.L90
	DW	1
	DW	2
	DW	0
.z2
	DW	.L90
.L91
	DW	1
	DW	2
	DW	0
.L92
	DW	3
	DW	4
	DW	0
.L93
	DW	.L91
	DW	.L92
.z3
	DW	.L93
.L94
	STRING	""ab""
.L95
	DW	1
	DW	2
	DW	.L94
.z4
	DW	.L95
.z5
	DW	0
.L96
	STRING	""abc""
.L97
	DW	1
	DW	2
	DW	.L96
.L98
	DW	0
	DW	.L97
	DW	0
.z6
	DW	.L98
.L99
	WS	3
.z7
	DW	.L99
.L100
	WS	3
.L101
	WS	3
.L102
	DW	.L100
	DW	.L101
.z8
	DW	.L102
.L103
	WS	2
.z9
	DW	.L103
.f6
	ENTRY	0
	LDG	.z2
	STG	.z1
	POP
	LDC	6
	ARG
	CALLF	1,_malloc
	STG	.z1
	POP
	LDG	.z1
	ARG
	CALLP	1,_free
	LDG	.z3
	LDC	3
	LDW
	STG	.z1
	POP
	LDG	.z3
	LDC	3
	LDW
	LDC	0
	LDW
	STG	.a
	POP
	LDG	.z3
	LDC	3
	LDW
	LDC	2
	LDW
	LDC	1
	LDW
	STG	.z1
	POP
	LDG	.z2
	LDC	2
	LDW
	LDC	1
	LDW
	LDC	2
	LDW
	LDC	1
	LDW
	LDC	0
	LDW
	STG	.a
	POP
	LDC	6
	ARG
	CALLF	1,_malloc
	LDG	.z8
	LDC	1
	LDW
	LDC	1
	STW
	POP
	LDC	1
	LDG	.z8
	LDC	1
	LDW
	LDC	1
	LDW
	LDC	0
	STW
	POP
	LDG	.z8
	ARG
	CALLP	1,_free
	RET
.L104
	STRING	""aaa""
.L105
	STRING	""aaa""
.L106
	STRING	""bbb""
.f11
	ENTRY	3
	LDC	1
	ARG
	CALLF	1,_f7
	STG	.z1
	POP
	LDC	1
	ARG
	CALLF	1,_f7
	LDC	1
	LDW
	STP	1
	POP
	LDG	.z1
	ARG
	CALLF	1,_f8
	LDC	1
	LDW
	STG	.z1
	POP
	LDG	.z3
	ARG
	CALLF	1,_f9
	LDC	1
	LDW
	STG	.z1
	POP
	LDC	0
	STG	.z1
	POP
	LDC	.L104
	ARG
	CALLP	1,_f10
	LDC	.L106
	ARG
	LDC	2
	ARG
	LDC	.L105
	ARG
	CALLP	3,_f10
	LDL	1
	ARG
	LDP	1
	ARG
	LDL	1
	ARG
	LDP	1
	ARG
	LDL	1
	ARG
	CALLP	5,.f11
	LDG	.z6
	LDC	3
	LDW
	LDG	.z6
	LDC	2
	STW
	LDG	.z6
	LDC	1
	STW
	POP
	LDC	1
	LDG	.y
	LDC	2
	LDW
	LDG	.y
	LDC	1
	STW
	LDC	1
	STW
	POP
	LDC	0
	STL	2
	POP
	LDC	0
	STL	3
	POP
.L107
	LDL	2
	LDL	3
	EQ
	JF	.L108
	LDL	3
	LDC	1
	ADD
	STL	3
	POP
	LDL	2
	LDC	1
	ADD
	STL	2
	POP
	JMP	.L107
.L108
	RET
.L109
	STRING	""aaa""
.ss
	DW	.L109
.f12
	ENTRY	2
	LDC	8
	ARG
	CALLF	1,_malloc
	STL	1
	POP
	LDL	1
	ARG
	CALLP	1,_free
	LDC	1
	STL	2
	POP
	RET
.f13
	ENTRY	4
	LDC	10
	STL	2
	POP
	LDC	18
	STL	3
	POP
	LDC	99
	STL	4
	POP
	LDG	.ss
	STL	1
	POP
	LDL	1
	STG	.z1
	POP
	RET
".
Proof. vm_compute. reflexivity. Qed.
Example t160_tac : compileText true false vm2tac t160_src = text "__alcAddr	WS	1
_environ	WS	1
.a	WS	1
.b	DW	48
.d	WS	1
.e	WS	1
.f	DW	10
.g	DW	20
.h	WS	1
.L1	DW	1000
	DW	2000
	DW	3000
.i	DW	.L1
.j	WS	1
.k	WS	1
.L2	DW	4000
	DW	5000
.L3	DW	6000
	DW	7000
	DW	8000
.L4	DW	.L2
	DW	.L3
.l	DW	.L4
.L5	STRING	""aaaa""
.n	DW	.L5
.L6	STRING	""abc""
.L7	DB	97
	DB	98
	DB	0
.L8	DW	.L6
	DW	.L7
.o	DW	.L8
.L9	DW	6
.L10	DW	7
	DW	8
.L11	DW	9
.L12	WS	10
.L13	DW	.L9
	DW	.L10
	DW	.L11
.L14	DW	.L12
	DW	.L13
.p	DW	.L14
.L15	DW	6
.L16	DW	7
	DW	8
.L17	DW	9
.L18	DW	.L15
	DW	.L16
	DW	.L17
.L19	DW	.L18
.L20	DW	.L19
	DW	0
.L21	DW	.L20
	DW	0
.pq	DW	.L21
.L22	STRING	""abc""
.f0	PUSH	FP
	LD	FP,SP
	PUSH	G3
	PUSH	G4
	PUSH	G5
	CALL	__stkChk
	LD	G3,#1
	LD	G5,#.L22
	LD	G0,.h
	ADDS	G0,#1
	LD	G1,#1
	ST	G1,0,G0
	LD	G0,0,G4
	ADDS	G0,#1
	LD	G0,0,G0
	ADDS	G0,#1
	LD	G0,0,G0
	ADDS	G0,#3
	LD	G1,#2
	ST	G1,0,G0
	POP	G5
	POP	G4
	POP	G3
	POP	FP
	RET
.L23	STRING	""ab""
.L24	STRING	""cd""
.L25	DW	.L23
	DW	.L24
.L26	WS	3
.L27	DW	.L25
	DW	.L26
.q	DW	.L27
.L28	DW	1
	DW	2
.L29	DW	3
	DW	4
	DW	5
.L30	DW	6
.L31	DW	7
	DW	8
.L32	DW	9
.L33	DW	.L28
	DW	.L29
.L34	DW	.L30
	DW	.L31
	DW	.L32
.L35	DW	.L33
	DW	.L34
.r	DW	.L35
.L36	BS	3
.s	DW	.L36
.L37	BS	2
.L38	BS	2
.L39	BS	2
.L40	DW	.L37
	DW	.L38
	DW	.L39
.t	DW	.L40
.L41	BS	2
.L42	BS	2
.L43	BS	2
.L44	BS	2
.L45	DW	.L41
	DW	.L42
.L46	DW	.L43
	DW	.L44
.L47	DW	.L45
	DW	.L46
.u	DW	.L47
.L48	STRING	""ab""
.L49	STRING	""cd""
.L50	DW	.L48
	DW	.L49
.L51	BS	2
.L52	BS	2
.L53	DW	.L51
	DW	.L52
.L54	DW	.L50
	DW	.L53
.v	DW	.L54
.f1	PUSH	FP
	LD	FP,SP
	PUSH	G3
	PUSH	G4
	PUSH	G5
	PUSH	G6
	PUSH	G7
	CALL	__stkChk
	LD	G3,#1
	LD	G0,#20
	PUSH	G0
	CALL	_malloc
	ADD	SP,#2
	LD	G6,G0
	LD	G0,0,G6
	CMP	G0,#0
	JNZ	.L55
	LD	G0,G6
	ADDS	G0,#1
	LD	G1,#1
	ST	G1,0,G0
	JMP	.L56
.L55
	LD	G0,G6
	ADDS	G0,#1
	LD	G1,#0
	ST	G1,0,G0
.L56
	LD	G0,0,G6
	CMP	G0,#1
	JNZ	.L57
	LD	G0,G6
	ADDS	G0,#1
	LD	G1,#1
	ST	G1,0,G0
.L57
	CMP	G3,#1
	JNZ	.L58
	LD	G3,#2
.L58
	CMP	G3,#0
	JZ	.L59
	LD	G3,#3
	JMP	.L60
.L59
	LD	G3,#4
.L60
	CMP	G3,#1
	JZ	.L61
	LD	G3,#5
	LD	G4,#6
	JMP	.L62
.L61
	LD	G3,#7
	LD	G4,#8
.L62
.L63
	CMP	G3,#0
	JNZ	.L64
	LD	G7,#1
	LD	G0,G7
	ADD	G0,#1
	LD	G7,G0
	JMP	.L63
.L64
	LD	G3,#0
.L65
	CMP	G3,#3
	JGE	.L66
	LD	G0,G6
	ADDS	G0,G3
	ST	G3,0,G0
	LD	G0,G3
	ADD	G0,#1
	LD	G3,G0
	JMP	.L65
.L66
.L67
	CMP	G3,#2
	JZ	.L68
	CMP	G4,#2
	JZ	.L68
	CMP	G5,#2
	JNZ	.L69
.L68
	CMP	G5,#1
	JNZ	.L70
	JMP	.L67
.L70
.L71
	CMP	G4,#2
	JNZ	.L72
	CMP	G5,#3
	JNZ	.L73
	JMP	.L72
.L73
	JMP	.L71
.L72
	CMP	G5,#4
	JNZ	.L74
	JMP	.L69
.L74
	JMP	.L67
.L69
	PUSH	G6
	CALL	_free
	ADD	SP,#2
	LD	G0,G5
	POP	G7
	POP	G6
	POP	G5
	POP	G4
	POP	G3
	POP	FP
	RET
.L75	DB	1
	DB	2
.L76	DB	3
	DB	4
.L77	DW	.L75
	DW	.L76
.ab	DW	.L77
.f2	PUSH	FP
	LD	FP,SP
	PUSH	G3
	PUSH	G4
	CALL	__stkChk
	LD	G3,#1
	LD	G4,#2
	PUSH	G4
	CMP	G3,#1
	JNZ	.L79
	CMP	G4,#1
	LD	G0,#1
	JZ	.L78
.L79
	LD	G0,#0
.L78
	PUSH	G0
	CALL	.f1
	ADD	SP,#4
	LD	G0,.ab
	ADDS	G0,#1
	LD	G0,0,G0
	POP	G4
	POP	G3
	POP	FP
	RET
.f3	PUSH	FP
	LD	FP,SP
	CALL	__stkChk
.L80
	JMP	.L80
	POP	FP
	RET
.f4	PUSH	FP
	LD	FP,SP
	PUSH	G3
	PUSH	G4
	CALL	__stkChk
	LD	G3,#0
	LD	G4,#1
.L81
	CMP	G3,#10
	JGE	.L82
	LD	G0,G4
	ADD	G0,#1
	SHLA	G0,#1
	LD	G3,G0
	LD	G0,G3
	ADD	G0,#1
	LD	G3,G0
	JMP	.L81
.L82
	POP	G4
	POP	G3
	POP	FP
	RET
.L83	WS	5
.x	DW	.L83
.L84	WS	5
.L85	WS	5
.L86	WS	5
.L87	WS	5
.L88	WS	5
.L89	DW	.L84
	DW	.L85
	DW	.L86
	DW	.L87
	DW	.L88
.y	DW	.L89
.f5	PUSH	FP
	LD	FP,SP
	CALL	__stkChk
	LD	G0,.i
	ADDS	G0,#5
	LD	G1,#1
	ST	G1,0,G0
	LD	G0,.i
	ADDS	G0,4,FP
	ST	G1,0,G0
	LD	G0,.x
	ADDS	G0,#1
	LD	G2,.i
	ADDS	G2,0,G0
	LD	G2,0,G2
	ADD	G2,#1
	LD	G0,.x
	ADDS	G0,G2
	ST	G1,0,G0
	LD	G0,.y
	ADDS	G0,#1
	LD	G0,0,G0
	PUSH	G0
	CALL	.f2
	ADD	G0,#2
	LD	G1,4,FP
	MUL	G1,6,FP
	MUL	G1,@G0
	LD	G0,.x
	ADDS	G0,#3
	MUL	G1,0,G0
	POP	G0
	ADDS	G0,G1
	LD	G0,0,G0
	ST	G0,6,FP
	POP	FP
	RET
.z1	WS	1
.L90	DW	1
	DW	2
	DW	0
.z2	DW	.L90
.L91	DW	1
	DW	2
	DW	0
.L92	DW	3
	DW	4
	DW	0
.L93	DW	.L91
	DW	.L92
.z3	DW	.L93
.L94	STRING	""ab""
.L95	DW	1
	DW	2
	DW	.L94
.z4	DW	.L95
.z5	DW	0
.L96	STRING	""abc""
.L97	DW	1
	DW	2
	DW	.L96
.L98	DW	0
	DW	.L97
	DW	0
.z6	DW	.L98
.L99	WS	3
.z7	DW	.L99
.L100	WS	3
.L101	WS	3
.L102	DW	.L100
	DW	.L101
.z8	DW	.L102
.L103	WS	2
.z9	DW	.L103
.f6	PUSH	FP
	LD	FP,SP
	CALL	__stkChk
	LD	G0,.z2
	ST	G0,.z1
	LD	G0,#6
	PUSH	G0
	CALL	_malloc
	ADD	SP,#2
	ST	G0,.z1
	LD	G0,.z1
	PUSH	G0
	CALL	_free
	ADD	SP,#2
	LD	G0,.z3
	ADDS	G0,#3
	LD	G0,0,G0
	ST	G0,.z1
	LD	G0,.z3
	ADDS	G0,#3
	LD	G0,0,G0
	LD	G0,0,G0
	ST	G0,.a
	LD	G0,.z3
	ADDS	G0,#3
	LD	G0,0,G0
	ADDS	G0,#2
	LD	G0,0,G0
	ADDS	G0,#1
	LD	G0,0,G0
	ST	G0,.z1
	LD	G0,.z2
	ADDS	G0,#2
	LD	G0,0,G0
	ADDS	G0,#1
	LD	G0,0,G0
	ADDS	G0,#2
	LD	G0,0,G0
	ADDS	G0,#1
	LD	G0,0,G0
	LD	G0,0,G0
	ST	G0,.a
	LD	G0,#6
	PUSH	G0
	CALL	_malloc
	ADD	SP,#2
	LD	G1,.z8
	ADDS	G1,#1
	LD	G1,0,G1
	ADDS	G1,#1
	ST	G0,0,G1
	LD	G0,.z8
	ADDS	G0,#1
	LD	G0,0,G0
	ADDS	G0,#1
	LD	G0,0,G0
	LD	G1,#1
	ST	G1,0,G0
	LD	G0,.z8
	PUSH	G0
	CALL	_free
	ADD	SP,#2
	POP	FP
	RET
.L104	STRING	""aaa""
.L105	STRING	""aaa""
.L106	STRING	""bbb""
.f11	PUSH	FP
	LD	FP,SP
	PUSH	G3
	PUSH	G4
	PUSH	G5
	CALL	__stkChk
	LD	G0,#1
	PUSH	G0
	CALL	_f7
	ADD	SP,#2
	ST	G0,.z1
	LD	G0,#1
	PUSH	G0
	CALL	_f7
	ADD	SP,#2
	ADDS	G0,#1
	LD	G0,0,G0
	ST	G0,4,FP
	LD	G0,.z1
	PUSH	G0
	CALL	_f8
	ADD	SP,#2
	ADDS	G0,#1
	LD	G0,0,G0
	ST	G0,.z1
	LD	G0,.z3
	PUSH	G0
	CALL	_f9
	ADD	SP,#2
	ADDS	G0,#1
	LD	G0,0,G0
	ST	G0,.z1
	LD	G0,#0
	ST	G0,.z1
	LD	G0,#.L104
	PUSH	G0
	CALL	_f10
	ADD	SP,#2
	LD	G0,#.L106
	PUSH	G0
	LD	G0,#2
	PUSH	G0
	LD	G0,#.L105
	PUSH	G0
	CALL	_f10
	ADD	SP,#6
	PUSH	G3
	LD	G0,4,FP
	PUSH	G0
	PUSH	G3
	LD	G0,4,FP
	PUSH	G0
	PUSH	G3
	CALL	.f11
	ADD	SP,#10
	LD	G0,.z6
	ADDS	G0,#3
	LD	G1,.z6
	ADDS	G1,#2
	LD	G0,0,G0
	ST	G0,0,G1
	LD	G1,.z6
	ADDS	G1,#1
	ST	G0,0,G1
	LD	G0,.y
	ADDS	G0,#2
	LD	G1,.y
	ADDS	G1,#1
	LD	G0,0,G0
	ST	G0,0,G1
	ADDS	G0,#1
	LD	G1,#1
	ST	G1,0,G0
	LD	G4,#0
	LD	G5,#0
.L107
	CMP	G4,G5
	JNZ	.L108
	LD	G0,G5
	ADD	G0,#1
	LD	G5,G0
	LD	G0,G4
	ADD	G0,#1
	LD	G4,G0
	JMP	.L107
.L108
	POP	G5
	POP	G4
	POP	G3
	POP	FP
	RET
.L109	STRING	""aaa""
.ss	DW	.L109
.f12	PUSH	FP
	LD	FP,SP
	PUSH	G3
	PUSH	G4
	CALL	__stkChk
	LD	G0,#8
	PUSH	G0
	CALL	_malloc
	ADD	SP,#2
	LD	G3,G0
	PUSH	G3
	CALL	_free
	ADD	SP,#2
	LD	G4,#1
	POP	G4
	POP	G3
	POP	FP
	RET
.f13	PUSH	FP
	LD	FP,SP
	PUSH	G3
	PUSH	G4
	PUSH	G5
	PUSH	G6
	CALL	__stkChk
	LD	G4,#10
	LD	G5,#18
	LD	G6,#99
	LD	G3,.ss
	ST	G3,.z1
	POP	G6
	POP	G5
	POP	G4
	POP	G3
	POP	FP
	RET
".
Proof. vm_compute. reflexivity. Qed.

Definition t170_src : list Z := codes "# 0 ""/repo/Test/c--/t170.cmm""
# 0 ""<built-in>""
# 0 ""<command-line>""
# 1 ""/repo/Test/c--/t170.cmm""





int a;
char b, c;
int d, e;
int f = 10, g = 20;
int[] h, i = { 1000,2000,3000 }, j;
int[][] k, l = { { 4000,5000},{6000,7000,8000} };
int[][][] m = { { {1,2},{3,4,5} }, { {6},{7,8},{9} } };
char[] n = ""aaaa"";
char[][] o = {""abc"",{'a','b','\0'}};
int[][][] p = { array(10), { {6},{7,8},{9} } };
int[] pq;

void f1() {
  int n;
  n = 1;
}

char[][][] q = { {""ab"",""cd""}, array(3)};

# 1 ""/repo/include/stdlib.hmm"" 1
# 39 ""/repo/include/stdlib.hmm""
public void[] _alcAddr;
public void _stdlibInit();

public void[] malloc(int s);
public int[] iMalloc(int n);
public char[] cMalloc(int n);
public boolean[] bMalloc(int n);
public void[][] rMalloc(int n);
public void[] calloc(int c, int s);
public void free(void[] m);

public int atoi(char[] s);
public int htoi(char[] s);
public int rand();
public void srand(int seed);
public void exit(int status);


public char[][] environ;

public char[] getEnv(char[] name);
public boolean putEnv(char[] string);
public boolean setEnv(char[] name, char[] value, boolean overwrite);
public boolean unsetEnv(char[] name);

public boolean absPath(char[] path, char[] buf, int bufSiz);
public char[] getWd();
public boolean chDir(char[] pathname);
# 26 ""/repo/Test/c--/t170.cmm"" 2

int f2(int x, int y) {
  int la;
  int lb;
  int[] lc = malloc(10);
  {
    int ld = x;
    int le = x;
  }
  int le = 30;
  char[] ls = ""ABCDE"";
  la = 10;
  b = chr(la);
  lb = ord(b);
  i[la] = lb;
  la = lb = 10;
  i[la] = lb = 10;
  i[la] = i[lb] = lb = 20;
  la = l[1][2];
  la = l[i[5]][i[la]];
  l[i[5]][i[la]]=i[la]=20;
  return la;
}

boolean f3() {
  boolean x = true || x && false || x;
  return x;
}

void f4() {
  int x = a | ord(b);
  int y = a*ord(b) ^ 1*2;
  int z = a & ord(b);
  boolean w = a == ord(b);
  boolean v = chr(a) != b;
  boolean u = a < ord(b);
  boolean t = a <= ord(b);
  boolean s = a > ord(b);
  boolean r = a >= ord(b);
  int q = a << ord(b);
  int p = a >> ord(b);
  int o = a + ord(b);
  int n = a - ord(b);
  int m = a * ord(b);
  int l = a / ord(b);
  int k = a % ord(b);
  int j = -a;
  int i = +a;
  boolean h = !w;
  int g = ~a;
  int f = a*ord(b)+ord(c)*d+2*3;
  boolean e = w && v;
  pq[2]=2;
}
"%string.
Example t170_ic : compileText true false vm2ic t170_src = text "vmNam(0)
vmWs(1)
vmNam(1)
vmWs(1)
vmNam(2)
vmWs(1)
vmNam(3)
vmWs(1)
vmNam(4)
vmWs(1)
vmNam(5)
vmDwCns(10)
vmNam(6)
vmDwCns(20)
vmNam(7)
vmWs(1)
vmLab(1)
vmDwCns(1000)
vmDwCns(2000)
vmDwCns(3000)
vmNam(8)
vmDwLab(1)
vmNam(9)
vmWs(1)
vmNam(10)
vmWs(1)
vmLab(2)
vmDwCns(4000)
vmDwCns(5000)
vmLab(3)
vmDwCns(6000)
vmDwCns(7000)
vmDwCns(8000)
vmLab(4)
vmDwLab(2)
vmDwLab(3)
vmNam(11)
vmDwLab(4)
vmLab(5)
vmDwCns(1)
vmDwCns(2)
vmLab(6)
vmDwCns(3)
vmDwCns(4)
vmDwCns(5)
vmLab(7)
vmDwCns(6)
vmLab(8)
vmDwCns(7)
vmDwCns(8)
vmLab(9)
vmDwCns(9)
vmLab(10)
vmDwLab(5)
vmDwLab(6)
vmLab(11)
vmDwLab(7)
vmDwLab(8)
vmDwLab(9)
vmLab(12)
vmDwLab(10)
vmDwLab(11)
vmNam(12)
vmDwLab(12)
vmLab(13)
vmStr(""aaaa"")
vmNam(13)
vmDwLab(13)
vmLab(14)
vmStr(""abc"")
vmLab(15)
vmDbCns(97)
vmDbCns(98)
vmDbCns(0)
vmLab(16)
vmDwLab(14)
vmDwLab(15)
vmNam(14)
vmDwLab(16)
vmLab(17)
vmDwCns(6)
vmLab(18)
vmDwCns(7)
vmDwCns(8)
vmLab(19)
vmDwCns(9)
vmLab(20)
vmWs(10)
vmLab(21)
vmDwLab(17)
vmDwLab(18)
vmDwLab(19)
vmLab(22)
vmDwLab(20)
vmDwLab(21)
vmNam(15)
vmDwLab(22)
vmNam(16)
vmWs(1)
vmNam(17)
vmEntry(1)
vmLdCns(1)
vmStLoc(1)
vmPop()
vmRet()
vmLab(23)
vmStr(""ab"")
vmLab(24)
vmStr(""cd"")
vmLab(25)
vmDwLab(23)
vmDwLab(24)
vmLab(26)
vmWs(3)
vmLab(27)
vmDwLab(25)
vmDwLab(26)
vmNam(18)
vmDwLab(27)
vmNam(19)
vmWs(1)
vmNam(45)
vmWs(1)
vmLab(28)
vmStr(""ABCDE"")
vmNam(63)
vmEntry(5)
vmLdCns(10)
vmArg()
vmCallF(1, 21)
vmStLoc(3)
vmPop()
vmLdPrm(1)
vmStLoc(4)
vmPop()
vmLdPrm(1)
vmStLoc(5)
vmPop()
vmLdCns(30)
vmStLoc(4)
vmPop()
vmLdLab(28)
vmStLoc(5)
vmPop()
vmLdCns(10)
vmStLoc(1)
vmPop()
vmLdLoc(1)
vmChr()
vmStGlb(1)
vmPop()
vmLdGlb(1)
vmStLoc(2)
vmPop()
vmLdLoc(2)
vmLdGlb(8)
vmLdLoc(1)
vmStWrd()
vmPop()
vmLdCns(10)
vmStLoc(2)
vmStLoc(1)
vmPop()
vmLdCns(10)
vmStLoc(2)
vmLdGlb(8)
vmLdLoc(1)
vmStWrd()
vmPop()
vmLdCns(20)
vmStLoc(2)
vmLdGlb(8)
vmLdLoc(2)
vmStWrd()
vmLdGlb(8)
vmLdLoc(1)
vmStWrd()
vmPop()
vmLdGlb(11)
vmLdCns(1)
vmLdWrd()
vmLdCns(2)
vmLdWrd()
vmStLoc(1)
vmPop()
vmLdGlb(11)
vmLdGlb(8)
vmLdCns(5)
vmLdWrd()
vmLdWrd()
vmLdGlb(8)
vmLdLoc(1)
vmLdWrd()
vmLdWrd()
vmStLoc(1)
vmPop()
vmLdCns(20)
vmLdGlb(8)
vmLdLoc(1)
vmStWrd()
vmLdGlb(11)
vmLdGlb(8)
vmLdCns(5)
vmLdWrd()
vmLdWrd()
vmLdGlb(8)
vmLdLoc(1)
vmLdWrd()
vmStWrd()
vmPop()
vmLdLoc(1)
vmMReg()
vmRet()
vmNam(66)
vmEntry(1)
vmLdCns(1)
vmStLoc(1)
vmPop()
vmLdLoc(1)
vmMReg()
vmRet()
vmNam(67)
vmEntry(22)
vmLdGlb(0)
vmLdGlb(1)
vmBOr()
vmStLoc(1)
vmPop()
vmLdGlb(0)
vmLdGlb(1)
vmMul()
vmLdCns(2)
vmBXor()
vmStLoc(2)
vmPop()
vmLdGlb(0)
vmLdGlb(1)
vmBAnd()
vmStLoc(3)
vmPop()
vmLdGlb(0)
vmLdGlb(1)
vmEq()
vmStLoc(4)
vmPop()
vmLdGlb(0)
vmChr()
vmLdGlb(1)
vmNe()
vmStLoc(5)
vmPop()
vmLdGlb(0)
vmLdGlb(1)
vmLt()
vmStLoc(6)
vmPop()
vmLdGlb(0)
vmLdGlb(1)
vmLe()
vmStLoc(7)
vmPop()
vmLdGlb(0)
vmLdGlb(1)
vmGt()
vmStLoc(8)
vmPop()
vmLdGlb(0)
vmLdGlb(1)
vmGe()
vmStLoc(9)
vmPop()
vmLdGlb(0)
vmLdGlb(1)
vmShl()
vmStLoc(10)
vmPop()
vmLdGlb(0)
vmLdGlb(1)
vmShr()
vmStLoc(11)
vmPop()
vmLdGlb(0)
vmLdGlb(1)
vmAdd()
vmStLoc(12)
vmPop()
vmLdGlb(0)
vmLdGlb(1)
vmSub()
vmStLoc(13)
vmPop()
vmLdGlb(0)
vmLdGlb(1)
vmMul()
vmStLoc(14)
vmPop()
vmLdGlb(0)
vmLdGlb(1)
vmDiv()
vmStLoc(15)
vmPop()
vmLdGlb(0)
vmLdGlb(1)
vmMod()
vmStLoc(16)
vmPop()
vmLdGlb(0)
vmNeg()
vmStLoc(17)
vmPop()
vmLdGlb(0)
vmStLoc(18)
vmPop()
vmLdLoc(4)
vmNot()
vmStLoc(19)
vmPop()
vmLdGlb(0)
vmBNot()
vmStLoc(20)
vmPop()
vmLdGlb(0)
vmLdGlb(1)
vmMul()
vmLdCns(6)
vmAdd()
vmLdGlb(2)
vmLdGlb(3)
vmMul()
vmAdd()
vmStLoc(21)
vmPop()
vmLdLoc(4)
vmJF(30)
vmLdLoc(5)
vmBoolAND(30, -1, 29)
vmStLoc(22)
vmPop()
vmLdCns(2)
vmLdGlb(16)
vmLdCns(2)
vmStWrd()
vmPop()
vmRet()
".
Proof. vm_compute. reflexivity. Qed.
Example t170_vm : compileText true false vm2vm t170_src = text ".a
	WS	1
.b
	WS	1
.c
	WS	1
.d
	WS	1
.e
	WS	1
.f
	DW	10
.g
	DW	20
.h
	WS	1
.L1
	DW	1000
	DW	2000
	DW	3000
.i
	DW	.L1
.j
	WS	1
.k
	WS	1
.L2
	DW	4000
	DW	5000
.L3
	DW	6000
	DW	7000
	DW	8000
.L4
	DW	.L2
	DW	.L3
.l
	DW	.L4
.L5
	DW	1
	DW	2
.L6
	DW	3
	DW	4
	DW	5
.L7
	DW	6
.L8
	DW	7
	DW	8
.L9
	DW	9
.L10
	DW	.L5
	DW	.L6
.L11
	DW	.L7
	DW	.L8
	DW	.L9
.L12
	DW	.L10
	DW	.L11
.m
	DW	.L12
.L13
	STRING	""aaaa""
.n
	DW	.L13
.L14
	STRING	""abc""
.L15
	DB	97
	DB	98
	DB	0
.L16
	DW	.L14
	DW	.L15
.o
	DW	.L16
.L17
	DW	6
.L18
	DW	7
	DW	8
.L19
	DW	9
.L20
	WS	10
.L21
	DW	.L17
	DW	.L18
	DW	.L19
.L22
	DW	.L20
	DW	.L21
.p
	DW	.L22
.pq
	WS	1
.f1
	ENTRY	1
	LDC	1
	STL	1
	POP
	RET
.L23
	STRING	""ab""
.L24
	STRING	""cd""
.L25
	DW	.L23
	DW	.L24
.L26
	WS	3
.L27
	DW	.L25
	DW	.L26
.q
	DW	.L27
__alcAddr
	WS	1
_environ
	WS	1
.L28
	STRING	""ABCDE""
.f2
	ENTRY	5
	LDC	10
	ARG
	CALLF	1,_malloc
	STL	3
	POP
	LDP	1
	STL	4
	POP
	LDP	1
	STL	5
	POP
	LDC	30
	STL	4
	POP
	LDC	.L28
	STL	5
	POP
	LDC	10
	STL	1
	POP
	LDL	1
	CHR
	STG	.b
	POP
	LDG	.b
	STL	2
	POP
	LDL	2
	LDG	.i
	LDL	1
	STW
	POP
	LDC	10
	STL	2
	STL	1
	POP
	LDC	10
	STL	2
	LDG	.i
	LDL	1
	STW
	POP
	LDC	20
	STL	2
	LDG	.i
	LDL	2
	STW
	LDG	.i
	LDL	1
	STW
	POP
	LDG	.l
	LDC	1
	LDW
	LDC	2
	LDW
	STL	1
	POP
	LDG	.l
	LDG	.i
	LDC	5
	LDW
	LDW
	LDG	.i
	LDL	1
	LDW
	LDW
	STL	1
	POP
	LDC	20
	LDG	.i
	LDL	1
	STW
	LDG	.l
	LDG	.i
	LDC	5
	LDW
	LDW
	LDG	.i
	LDL	1
	LDW
	STW
	POP
	LDL	1
	MREG
	RET
.f3
	ENTRY	1
	LDC	1
	STL	1
	POP
	LDL	1
	MREG
	RET
.f4
	ENTRY	22
	LDG	.a
	LDG	.b
	BOR
	STL	1
	POP
	LDG	.a
	LDG	.b
	MUL
	LDC	2
	BXOR
	STL	2
	POP
	LDG	.a
	LDG	.b
	BAND
	STL	3
	POP
	LDG	.a
	LDG	.b
	EQ
	STL	4
	POP
	LDG	.a
	CHR
	LDG	.b
	NE
	STL	5
	POP
	LDG	.a
	LDG	.b
	LT
	STL	6
	POP
	LDG	.a
	LDG	.b
	LE
	STL	7
	POP
	LDG	.a
	LDG	.b
	GT
	STL	8
	POP
	LDG	.a
	LDG	.b
	GE
	STL	9
	POP
	LDG	.a
	LDG	.b
	SHL
	STL	10
	POP
	LDG	.a
	LDG	.b
	SHR
	STL	11
	POP
	LDG	.a
	LDG	.b
	ADD
	STL	12
	POP
	LDG	.a
	LDG	.b
	SUB
	STL	13
	POP
	LDG	.a
	LDG	.b
	MUL
	STL	14
	POP
	LDG	.a
	LDG	.b
	DIV
	STL	15
	POP
	LDG	.a
	LDG	.b
	MOD
	STL	16
	POP
	LDG	.a
	NEG
	STL	17
	POP
	LDG	.a
	STL	18
	POP
	LDL	4
	NOT
	STL	19
	POP
	LDG	.a
	BNOT
	STL	20
	POP
	LDG	.a
	LDG	.b
	MUL
	LDC	6
	ADD
	LDG	.c
	LDG	.d
	MUL
	ADD
	STL	21
	POP
	LDL	4
	JF	.L30
	LDL	5
; BOOLAND .L30,.L-1,.L29
	JMP	.L29
.L30
	LDC	0
.L29
; ----
	STL	22
	POP
	LDC	2
	LDG	.pq
	LDC	2
	STW
	POP
	RET
".
Proof. vm_compute. reflexivity. Qed.
Example t170_tac : compileText true false vm2tac t170_src = text ".a	WS	1
.b	WS	1
.c	WS	1
.d	WS	1
.e	WS	1
.f	DW	10
.g	DW	20
.h	WS	1
.L1	DW	1000
	DW	2000
	DW	3000
.i	DW	.L1
.j	WS	1
.k	WS	1
.L2	DW	4000
	DW	5000
.L3	DW	6000
	DW	7000
	DW	8000
.L4	DW	.L2
	DW	.L3
.l	DW	.L4
.L5	DW	1
	DW	2
.L6	DW	3
	DW	4
	DW	5
.L7	DW	6
.L8	DW	7
	DW	8
.L9	DW	9
.L10	DW	.L5
	DW	.L6
.L11	DW	.L7
	DW	.L8
	DW	.L9
.L12	DW	.L10
	DW	.L11
.m	DW	.L12
.L13	STRING	""aaaa""
.n	DW	.L13
.L14	STRING	""abc""
.L15	DB	97
	DB	98
	DB	0
.L16	DW	.L14
	DW	.L15
.o	DW	.L16
.L17	DW	6
.L18	DW	7
	DW	8
.L19	DW	9
.L20	WS	10
.L21	DW	.L17
	DW	.L18
	DW	.L19
.L22	DW	.L20
	DW	.L21
.p	DW	.L22
.pq	WS	1
.f1	PUSH	FP
	LD	FP,SP
	PUSH	G3
	CALL	__stkChk
	LD	G3,#1
	POP	G3
	POP	FP
	RET
.L23	STRING	""ab""
.L24	STRING	""cd""
.L25	DW	.L23
	DW	.L24
.L26	WS	3
.L27	DW	.L25
	DW	.L26
.q	DW	.L27
__alcAddr	WS	1
_environ	WS	1
.L28	STRING	""ABCDE""
.f2	PUSH	FP
	LD	FP,SP
	PUSH	G3
	PUSH	G4
	PUSH	G5
	PUSH	G6
	PUSH	G7
	CALL	__stkChk
	LD	G0,#10
	PUSH	G0
	CALL	_malloc
	ADD	SP,#2
	LD	G5,G0
	LD	G6,4,FP
	LD	G7,4,FP
	LD	G6,#30
	LD	G7,#.L28
	LD	G3,#10
	LD	G0,G3
	AND	G0,#255
	ST	G0,.b
	LD	G4,.b
	LD	G0,.i
	ADDS	G0,G3
	ST	G4,0,G0
	LD	G4,#10
	LD	G3,G4
	LD	G4,#10
	LD	G0,.i
	ADDS	G0,G3
	ST	G4,0,G0
	LD	G4,#20
	LD	G0,.i
	ADDS	G0,G4
	ST	G4,0,G0
	LD	G0,.i
	ADDS	G0,G3
	ST	G4,0,G0
	LD	G0,.l
	ADDS	G0,#1
	LD	G0,0,G0
	ADDS	G0,#2
	LD	G3,0,G0
	LD	G0,.i
	ADDS	G0,#5
	LD	G1,.l
	ADDS	G1,0,G0
	LD	G0,.i
	ADDS	G0,G3
	LD	G1,0,G1
	ADDS	G1,0,G0
	LD	G3,0,G1
	LD	G0,.i
	ADDS	G0,G3
	LD	G1,#20
	ST	G1,0,G0
	LD	G0,.i
	ADDS	G0,#5
	LD	G2,.l
	ADDS	G2,0,G0
	LD	G0,.i
	ADDS	G0,G3
	LD	G2,0,G2
	ADDS	G2,0,G0
	ST	G1,0,G2
	LD	G0,G3
	POP	G7
	POP	G6
	POP	G5
	POP	G4
	POP	G3
	POP	FP
	RET
.f3	PUSH	FP
	LD	FP,SP
	PUSH	G3
	CALL	__stkChk
	LD	G3,#1
	LD	G0,G3
	POP	G3
	POP	FP
	RET
.f4	PUSH	FP
	LD	FP,SP
	SUB	SP,#26
	PUSH	G3
	PUSH	G4
	PUSH	G5
	PUSH	G6
	PUSH	G7
	PUSH	G8
	PUSH	G9
	PUSH	G10
	PUSH	G11
	CALL	__stkChk
	LD	G0,.a
	OR	G0,.b
	LD	G3,G0
	LD	G0,.a
	MUL	G0,.b
	XOR	G0,#2
	LD	G4,G0
	LD	G0,.a
	AND	G0,.b
	LD	G5,G0
	LD	G0,.a
	CMP	G0,.b
	LD	G6,#1
	JZ	.T0
	LD	G6,#0
.T0
	LD	G0,.a
	AND	G0,#255
	CMP	G0,.b
	LD	G7,#1
	JNZ	.T1
	LD	G7,#0
.T1
	LD	G0,.a
	CMP	G0,.b
	LD	G8,#1
	JLT	.T2
	LD	G8,#0
.T2
	LD	G0,.a
	CMP	G0,.b
	LD	G9,#1
	JLE	.T3
	LD	G9,#0
.T3
	LD	G0,.a
	CMP	G0,.b
	LD	G10,#1
	JGT	.T4
	LD	G10,#0
.T4
	LD	G0,.a
	CMP	G0,.b
	LD	G11,#1
	JGE	.T5
	LD	G11,#0
.T5
	LD	G0,.a
	SHLA	G0,.b
	ST	G0,-2,FP
	LD	G0,.a
	SHRA	G0,.b
	ST	G0,-4,FP
	LD	G0,.a
	ADD	G0,.b
	ST	G0,-6,FP
	LD	G0,.a
	SUB	G0,.b
	ST	G0,-8,FP
	LD	G0,.a
	MUL	G0,.b
	ST	G0,-10,FP
	LD	G0,.a
	DIV	G0,.b
	ST	G0,-12,FP
	LD	G0,.a
	MOD	G0,.b
	ST	G0,-14,FP
	LD	G0,.a
	XOR	G0,#-1
	ADD	G0,#1
	ST	G0,-16,FP
	LD	G0,.a
	ST	G0,-18,FP
	LD	G0,G6
	XOR	G0,#1
	ST	G0,-20,FP
	LD	G0,.a
	XOR	G0,#-1
	ST	G0,-22,FP
	LD	G0,.a
	MUL	G0,.b
	ADD	G0,#6
	LD	G1,.c
	MUL	G1,.d
	ADD	G0,G1
	ST	G0,-24,FP
	CMP	G6,#0
	JZ	.L30
	LD	G0,G7
	JMP	.L29
.L30
	LD	G0,#0
.L29
	ST	G0,-26,FP
	LD	G0,.pq
	ADDS	G0,#2
	LD	G1,#2
	ST	G1,0,G0
	POP	G11
	POP	G10
	POP	G9
	POP	G8
	POP	G7
	POP	G6
	POP	G5
	POP	G4
	POP	G3
	LD	SP,FP
	POP	FP
	RET
".
Proof. vm_compute. reflexivity. Qed.

Definition t180_src : list Z := codes "# 0 ""/repo/Test/c--/t180.cmm""
# 0 ""<built-in>""
# 0 ""<command-line>""
# 1 ""/repo/Test/c--/t180.cmm""





int a;

public int main() {
    if (1>2 && !(1>2) && true)
      a = 1;
    else
      a = 2;
    return 0;
}
"%string.
Example t180_ic : compileText true false vm2ic t180_src = text "vmNam(0)
vmWs(1)
vmNam(1)
vmEntry(0)
vmLdCns(2)
vmStGlb(0)
vmPop()
vmLdCns(0)
vmMReg()
vmRet()
".
Proof. vm_compute. reflexivity. Qed.
Example t180_vm : compileText true false vm2vm t180_src = text ".a
	WS	1
_main
	ENTRY	0
	LDC	2
	STG	.a
	POP
	LDC	0
	MREG
	RET
".
Proof. vm_compute. reflexivity. Qed.
Example t180_tac : compileText true false vm2tac t180_src = text ".a	WS	1
_main	PUSH	FP
	LD	FP,SP
	CALL	__stkChk
	LD	G0,#2
	ST	G0,.a
	LD	G0,#0
	POP	FP
	RET
".
Proof. vm_compute. reflexivity. Qed.

Definition t190_src : list Z := codes "# 0 ""/repo/Test/c--/t190.cmm""
# 0 ""<built-in>""
# 0 ""<command-line>""
# 1 ""/repo/Test/c--/t190.cmm""




int[] a = array(10);
struct X {
  int a;
  int b;
};

public int main() {
  int i,j;
  X l;

  i = i + 0;
  i = i + 1;
  j = j - 0;
  j = j - 1;
  i = a[0];
  j = a[1];
  i = l.a;
  j = l.b;
  return 0;
}
"%string.
Example t190_ic : compileText true false vm2ic t190_src = text "vmLab(1)
vmWs(10)
vmNam(0)
vmDwLab(1)
vmNam(4)
vmEntry(3)
vmLdLoc(1)
vmStLoc(1)
vmPop()
vmLdLoc(1)
vmLdCns(1)
vmAdd()
vmStLoc(1)
vmPop()
vmLdLoc(2)
vmStLoc(2)
vmPop()
vmLdLoc(2)
vmLdCns(65535)
vmAdd()
vmStLoc(2)
vmPop()
vmLdGlb(0)
vmLdCns(0)
vmLdWrd()
vmStLoc(1)
vmPop()
vmLdGlb(0)
vmLdCns(1)
vmLdWrd()
vmStLoc(2)
vmPop()
vmLdLoc(3)
vmLdCns(0)
vmLdWrd()
vmStLoc(1)
vmPop()
vmLdLoc(3)
vmLdCns(1)
vmLdWrd()
vmStLoc(2)
vmPop()
vmLdCns(0)
vmMReg()
vmRet()
".
Proof. vm_compute. reflexivity. Qed.
Example t190_vm : compileText true false vm2vm t190_src = text ".L1
	WS	10
.a
	DW	.L1
_main
	ENTRY	3
	LDL	1
	STL	1
	POP
	LDL	1
	LDC	1
	ADD
	STL	1
	POP
	LDL	2
	STL	2
	POP
	LDL	2
	LDC	65535
	ADD
	STL	2
	POP
	LDG	.a
	LDC	0
	LDW
	STL	1
	POP
	LDG	.a
	LDC	1
	LDW
	STL	2
	POP
	LDL	3
	LDC	0
	LDW
	STL	1
	POP
	LDL	3
	LDC	1
	LDW
	STL	2
	POP
	LDC	0
	MREG
	RET
".
Proof. vm_compute. reflexivity. Qed.
Example t190_tac : compileText true false vm2tac t190_src = text ".L1	WS	10
.a	DW	.L1
_main	PUSH	FP
	LD	FP,SP
	PUSH	G3
	PUSH	G4
	PUSH	G5
	CALL	__stkChk
	LD	G0,G3
	ADD	G0,#1
	LD	G3,G0
	LD	G0,G4
	ADD	G0,#65535
	LD	G4,G0
	LD	G0,.a
	LD	G3,0,G0
	LD	G0,.a
	ADDS	G0,#1
	LD	G4,0,G0
	LD	G3,0,G5
	LD	G0,G5
	ADDS	G0,#1
	LD	G4,0,G0
	LD	G0,#0
	POP	G5
	POP	G4
	POP	G3
	POP	FP
	RET
".
Proof. vm_compute. reflexivity. Qed.

Definition t200_src : list Z := codes "# 0 ""/repo/Test/c--/t200.cmm""
# 0 ""<built-in>""
# 0 ""<command-line>""
# 1 ""/repo/Test/c--/t200.cmm""




public int f();

public int main() {
  int i,j,k;
  i = j * k;
  i = j / k;
  i = j % k;
  i = f() * k;
  i = f() / k;
  i = f() % k;
  i = j * f();
  i = j / f();
  i = j % f();
  return 0;
}
"%string.
Example t200_ic : compileText true false vm2ic t200_src = text "vmNam(1)
vmEntry(3)
vmLdLoc(2)
vmLdLoc(3)
vmMul()
vmStLoc(1)
vmPop()
vmLdLoc(2)
vmLdLoc(3)
vmDiv()
vmStLoc(1)
vmPop()
vmLdLoc(2)
vmLdLoc(3)
vmMod()
vmStLoc(1)
vmPop()
vmCallF(0, 0)
vmLdLoc(3)
vmMul()
vmStLoc(1)
vmPop()
vmCallF(0, 0)
vmLdLoc(3)
vmDiv()
vmStLoc(1)
vmPop()
vmCallF(0, 0)
vmLdLoc(3)
vmMod()
vmStLoc(1)
vmPop()
vmCallF(0, 0)
vmLdLoc(2)
vmMul()
vmStLoc(1)
vmPop()
vmLdLoc(2)
vmCallF(0, 0)
vmDiv()
vmStLoc(1)
vmPop()
vmLdLoc(2)
vmCallF(0, 0)
vmMod()
vmStLoc(1)
vmPop()
vmLdCns(0)
vmMReg()
vmRet()
".
Proof. vm_compute. reflexivity. Qed.
Example t200_vm : compileText true false vm2vm t200_src = text "_main
	ENTRY	3
	LDL	2
	LDL	3
	MUL
	STL	1
	POP
	LDL	2
	LDL	3
	DIV
	STL	1
	POP
	LDL	2
	LDL	3
	MOD
	STL	1
	POP
	CALLF	0,_f
	LDL	3
	MUL
	STL	1
	POP
	CALLF	0,_f
	LDL	3
	DIV
	STL	1
	POP
	CALLF	0,_f
	LDL	3
	MOD
	STL	1
	POP
	CALLF	0,_f
	LDL	2
	MUL
	STL	1
	POP
	LDL	2
	CALLF	0,_f
	DIV
	STL	1
	POP
	LDL	2
	CALLF	0,_f
	MOD
	STL	1
	POP
	LDC	0
	MREG
	RET
".
Proof. vm_compute. reflexivity. Qed.
Example t200_tac : compileText true false vm2tac t200_src = text "_main	PUSH	FP
	LD	FP,SP
	PUSH	G3
	PUSH	G4
	PUSH	G5
	CALL	__stkChk
	LD	G0,G4
	MUL	G0,G5
	LD	G3,G0
	LD	G0,G4
	DIV	G0,G5
	LD	G3,G0
	LD	G0,G4
	MOD	G0,G5
	LD	G3,G0
	CALL	_f
	MUL	G0,G5
	LD	G3,G0
	CALL	_f
	DIV	G0,G5
	LD	G3,G0
	CALL	_f
	MOD	G0,G5
	LD	G3,G0
	CALL	_f
	MUL	G0,G4
	LD	G3,G0
	CALL	_f
	LD	G1,G4
	DIV	G1,G0
	LD	G3,G1
	CALL	_f
	LD	G1,G4
	MOD	G1,G0
	LD	G3,G1
	LD	G0,#0
	POP	G5
	POP	G4
	POP	G3
	POP	FP
	RET
".
Proof. vm_compute. reflexivity. Qed.

Definition t210_src : list Z := codes "# 0 ""/repo/Test/c--/t210.cmm""
# 0 ""<built-in>""
# 0 ""<command-line>""
# 1 ""/repo/Test/c--/t210.cmm""





public int main() {
  int a;
  for (;;) {
    if (1>0) continue;
    for (int i=0; i<100; i=i+1) {
      if (i<0) continue;
      a = 3;
      if (i<0) break;
    }
    if (1>0) break;
  }
  return 0;
}
"%string.
Example t210_ic : compileText true false vm2ic t210_src = text "vmNam(0)
vmEntry(2)
vmLab(1)
vmJmp(1)
vmLdCns(0)
vmStLoc(2)
vmPop()
vmLab(2)
vmLdLoc(2)
vmLdCns(100)
vmLt()
vmJF(3)
vmLdLoc(2)
vmLdCns(0)
vmLt()
vmJF(4)
vmJmp(5)
vmLab(4)
vmLdCns(3)
vmStLoc(1)
vmPop()
vmLdLoc(2)
vmLdCns(0)
vmLt()
vmJF(6)
vmJmp(3)
vmLab(6)
vmLab(5)
vmLdLoc(2)
vmLdCns(1)
vmAdd()
vmStLoc(2)
vmPop()
vmJmp(2)
vmLab(3)
vmJmp(7)
vmLab(7)
vmLdCns(0)
vmMReg()
vmRet()
".
Proof. vm_compute. reflexivity. Qed.
Example t210_vm : compileText true false vm2vm t210_src = text "_main
	ENTRY	2
.L1
	JMP	.L1
	LDC	0
	STL	2
	POP
.L2
	LDL	2
	LDC	100
	LT
	JF	.L3
	LDL	2
	LDC	0
	LT
	JF	.L4
	JMP	.L5
.L4
	LDC	3
	STL	1
	POP
	LDL	2
	LDC	0
	LT
	JF	.L6
	JMP	.L3
.L6
.L5
	LDL	2
	LDC	1
	ADD
	STL	2
	POP
	JMP	.L2
.L3
	JMP	.L7
.L7
	LDC	0
	MREG
	RET
".
Proof. vm_compute. reflexivity. Qed.
Example t210_tac : compileText true false vm2tac t210_src = text "_main	PUSH	FP
	LD	FP,SP
	PUSH	G3
	PUSH	G4
	CALL	__stkChk
.L1
	JMP	.L1
	LD	G4,#0
.L2
	CMP	G4,#100
	JGE	.L3
	CMP	G4,#0
	JGE	.L4
	JMP	.L5
.L4
	LD	G3,#3
	CMP	G4,#0
	JGE	.L6
	JMP	.L3
.L6
.L5
	LD	G0,G4
	ADD	G0,#1
	LD	G4,G0
	JMP	.L2
.L3
	JMP	.L7
.L7
	LD	G0,#0
	POP	G4
	POP	G3
	POP	FP
	RET
".
Proof. vm_compute. reflexivity. Qed.
