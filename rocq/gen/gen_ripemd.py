# Prints the step lines of RIPEMD160_compress as Coq lists.
import re
src = open('/repo/src/ripemd160.c').read().split('\n')
def prog(lo, hi):
    out = []
    for l in src[lo-1:hi]:
        m = re.match(r'\s*([F-J]+)\((\w), (\w), (\w), (\w), (\w), data\[\s*(\d+)\]\s*,\s*(\d+)\);', l)
        if m:
            g = m.groups()
            out.append('I %s %s %s %s' % (g[0], ' '.join(str('abcde'.index(x)) for x in g[1:6]), g[6], g[7]))
    return out
left = prog(121, 210); right = prog(211, 311)
assert len(left) == 80 and len(right) == 80, (len(left), len(right))
def fmt(l):
    return '  [ ' + ';\n    '.join('; '.join(l[i:i+4]) for i in range(0, len(l), 4)) + ' ]'
print('Definition rmd_left : list instr :=\n%s.\n' % fmt(left))
print('Definition rmd_right : list instr :=\n%s.' % fmt(right))
