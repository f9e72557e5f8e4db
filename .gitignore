*.vo
*.vok
*.vos
*.glob
*.aux
.*.aux
rocq/Makefile*
rocq/.Makefile*
.lia.cache
.nia.cache
*.d
.nra.cache
.lia.cache
