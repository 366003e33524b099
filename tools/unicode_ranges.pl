#!/usr/bin/perl
# Writes rocq/theories/UniData.v: the code points that have a property, as sorted maximal ranges, from perl's own copy of the
# Unicode Character Database (no file of muu is read).
use strict; use warnings; use Unicode::UCD qw(prop_invlist);
my %sets = (
  white_space => [['White_Space']], hyphen => [['Hyphen']],
  letter => [['gc=L']], decimal_or_letter_number => [['gc=Nd'], ['gc=Nl']], nonspacing_or_spacing_mark => [['gc=Mn'], ['gc=Mc']],
  uppercase => [['Uppercase']], lowercase => [['Lowercase']],
);
print "(** Generated by tools/unicode_ranges.pl from the Unicode Character Database, version ", Unicode::UCD::UnicodeVersion(), ". *)\n";
print "From Verif Require Import Words.\nImport ListNotations.\nLocal Open Scope N_scope.\n\n";
for my $name (sort keys %sets) {
  my @m;
  for my $p (@{$sets{$name}}) {
    my @l = prop_invlist($p->[0]); die $name unless @l;
    for (my $i = 0; $i < @l; $i += 2) { push @m, [$l[$i], ($i + 1 < @l ? $l[$i + 1] : 0x110000) - 1]; }
  }
  @m = sort { $a->[0] <=> $b->[0] } @m;
  my @r;
  for my $x (@m) { if (@r && $x->[0] == $r[-1][1] + 1) { $r[-1][1] = $x->[1] } else { push @r, [@$x] } }
  print "Definition $name : list (N * N) :=\n  [", join(";", map { (($_ % 8 == 0 && $_) ? "\n   " : "") . sprintf("(0x%X,0x%X)", @{$r[$_]}) } 0..$#r), "].\n";
}
