*.vo
*.vok
*.vos
*.glob
*.aux
rocq/Makefile
rocq/Makefile.conf
.*.d
.lia.cache
.nia.cache
.nra.cache
.lia.cache
.nia.cache
