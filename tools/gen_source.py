"""Copies the text of the crate's macros into rocq/theories/Source.v, character by character (a double quote is
written twice in a Coq string). Run once; the output is committed."""
import os, sys
MOD, META = '/repo/src/tagged_box_macro/mod.rs', '/repo/src/tagged_box_macro/meta_macros.rs'
def lines(path): return open(path).read().split('\n')
def macro(path, name, first=True):
    """The lines of [macro_rules! name], from that line to the closing brace in the first column."""
    l = lines(path)
    a = next(i for i, s in enumerate(l) if s.startswith('macro_rules! ' + name + ' {'))
    b = next(i for i in range(a, len(l)) if l[i].rstrip() == '}' or i == len(l) - 2)
    return a + 1, b + 1, '\n'.join(l[a:b + 1])
def commented(path, name):
    """The commented-out call [// name! { .. // }], without the slashes."""
    l = lines(path)
    a = next(i for i, s in enumerate(l) if s.startswith('// ' + name + '! {'))
    b = next(i for i in range(a, len(l)) if l[i].rstrip() == '// }')
    return a + 1, b + 1, '\n'.join(s[3:] for s in l[a:b + 1])
o = ['''(** The text of the crate's macros, copied from [/repo/src/tagged_box_macro/mod.rs] and
    [/repo/src/tagged_box_macro/meta_macros.rs] by [tools/gen_source.py], with all its comments. *)
From Coq Require Import String.
Local Open Scope string_scope.
''']
def put(coq, path, a, b, text, note=''):
    o.append('(** [%s:%d-%d]%s. *)\nDefinition %s : string :=\n"%s".\n' % (path, a, b, note, coq, text.replace('"', '""')))
for path, name in [(MOD, '__make_enum'), (MOD, '__taggable_into_box'), (MOD, '__derive_from'), (MOD, '__generate_const_sizes'),
                   (MOD, '__boxed_into_inner'), (MOD, '__from_tagged_box'), (MOD, '__ref_from_tagged'), (MOD, '__counter_enum'),
                   (MOD, '__count_variants'), (MOD, '__verify_variants'), (MOD, 'tagged_box'),
                   (META, 'generate_tuple_expansion'), (META, '__expand_tuple'),
                   (META, 'generate_tuple_arm_expansion'), (META, '__expand_tuple_arm')]:
    a, b, t = macro(path, name)
    put('rs' + name if name.startswith('__') else 'rs__' + name, path, a, b, t)
for name in ['generate_tuple_expansion', 'generate_tuple_arm_expansion']:
    a, b, t = commented(META, name)
    put('call__' + name, META, a, b, t, ', which is commented out there')
open(sys.argv[1] if len(sys.argv) > 1 else os.path.join(os.path.dirname(os.path.abspath(__file__)), '../rocq/theories/Source.v'), 'w').write('\n'.join(o))
