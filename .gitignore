*.vo
*.vok
*.vos
*.glob
.*.aux
*.aux
.lia.cache
.nia.cache
rocq/Makefile
rocq/Makefile.conf
rocq/.Makefile.d
rocq/.coqdeps.d
.nra.cache
.lia.cache
.nia.cache
.lra.cache
